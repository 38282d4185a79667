(** * The bit extraction of the Z-curve *)

From Coq Require Export Permutation.
From Verif Require Export ZCurve StateFacts.

(** ** The bit-level part: [zc_special] extracts every [N]-th bit *)

Definition zs_fun (n d z : Z) : Z :=
  let k := zc_num_iter 7 n in
  Z.land (fold_left (zc_special_iter n) (seq 0 k) (Z.shiftr z (n - d - 1))) (2 ^ (2 ^ Z.of_nat k) - 1).

Lemma zs_iter_lor n i x y : zc_special_iter n (Z.lor x y) i = Z.lor (zc_special_iter n x i) (zc_special_iter n y i).
Proof.
  unfold zc_special_iter. set (m := zc_rep_bits _ _ _). set (s := Z.shiftl (n - 1) (Z.of_nat i)).
  apply Z.bits_inj'. intros k Hk.
  rewrite !Z.lor_spec, !Z.land_spec, !Z.shiftr_spec, !Z.land_spec, !Z.lor_spec by exact Hk.
  destruct (Z.testbit x k), (Z.testbit y k), (Z.testbit m k), (Z.testbit m (k + s)),
    (Z.testbit x (k + s)), (Z.testbit y (k + s)); reflexivity.
Qed.

Lemma zs_fold_lor n l : forall x y,
  fold_left (zc_special_iter n) l (Z.lor x y)
  = Z.lor (fold_left (zc_special_iter n) l x) (fold_left (zc_special_iter n) l y).
Proof. induction l as [|i l IH]; intros x y; simpl; [reflexivity|]. rewrite zs_iter_lor. apply IH. Qed.

Lemma zs_lor n d x y : zs_fun n d (Z.lor x y) = Z.lor (zs_fun n d x) (zs_fun n d y).
Proof.
  unfold zs_fun. rewrite Z.shiftr_lor, zs_fold_lor. apply Z.land_lor_distr_l.
Qed.

Lemma zs_0 n d : zs_fun n d 0 = 0.
Proof.
  unfold zs_fun. rewrite Z.shiftr_0_l.
  assert (H : forall l, fold_left (zc_special_iter n) l 0 = 0).
  { induction l as [|i l IH]; simpl; [reflexivity|].
    replace (zc_special_iter n 0 i) with 0; [exact IH|]. unfold zc_special_iter. rewrite Z.land_0_l, Z.shiftr_0_l. reflexivity. }
  rewrite H. apply Z.land_0_l.
Qed.

(** All single bits, for every number of dimensions that the precondition allows. *)
Definition zs_bit (n d b : Z) : Z :=
  if (n - d - 1 <=? b) && ((b - (n - d - 1)) mod n =? 0) then 2 ^ ((b - (n - d - 1)) / n) else 0.
Definition zs_check (ns bs : list Z) : bool :=
  forallb (fun n => forallb (fun d => forallb (fun b => zs_fun n d (2 ^ b) =? zs_bit n d b) bs) (zseq n)) ns.

Lemma zs_check_sound ns bs n d b :
  zs_check ns bs = true -> In n ns -> In b bs -> 0 <= d < n -> zs_fun n d (2 ^ b) = zs_bit n d b.
Proof.
  unfold zs_check. rewrite forallb_forall. intros H Hn Hb Hd. specialize (H n Hn).
  rewrite forallb_forall in H. specialize (H d (proj2 (zseq_In _ _) Hd)).
  rewrite forallb_forall in H. apply Z.eqb_eq, H, Hb.
Qed.

Lemma zs_check_ok : zs_check (map (Z.add 2) (zseq 31)) (zseq 32) = true.
Proof. vm_compute. reflexivity. Qed.

Lemma zs_one n d b : 2 <= n <= 32 -> 0 <= d < n -> 0 <= b < 32 -> zs_fun n d (2 ^ b) = zs_bit n d b.
Proof.
  intros Hn Hd Hb. apply (zs_check_sound _ _ n d b zs_check_ok); [|apply zseq_In; exact Hb|exact Hd].
  apply in_map_iff. exists (n - 2). split; [lia|]. apply zseq_In. lia.
Qed.

(** [z] is the union of its bits. *)
Fixpoint bits_below (k : nat) (z : Z) : Z :=
  match k with
  | O => 0
  | S k' => Z.lor (bits_below k' z) (if Z.testbit z (Z.of_nat k') then 2 ^ Z.of_nat k' else 0)
  end.

Lemma bits_below_spec k z j : 0 <= j -> Z.testbit (bits_below k z) j = (j <? Z.of_nat k) && Z.testbit z j.
Proof.
  intros Hj. induction k as [|k IH].
  - simpl. rewrite Z.bits_0. destruct (Z.ltb_spec j 0); [lia|reflexivity].
  - cbn [bits_below]. rewrite Z.lor_spec, IH.
    destruct (Z.eqb_spec j (Z.of_nat k)) as [->|Hne].
    + destruct (Z.ltb_spec (Z.of_nat k) (Z.of_nat k)); [lia|]. destruct (Z.ltb_spec (Z.of_nat k) (Z.of_nat (S k))); [|lia].
      simpl. destruct (Z.testbit z (Z.of_nat k)); [rewrite Z.pow2_bits_true by lia|rewrite Z.bits_0]; reflexivity.
    + replace (Z.testbit (if Z.testbit z (Z.of_nat k) then 2 ^ Z.of_nat k else 0) j) with false.
      * rewrite orb_false_r. f_equal. destruct (Z.ltb_spec j (Z.of_nat k)), (Z.ltb_spec j (Z.of_nat (S k))); lia.
      * symmetry. destruct (Z.testbit z (Z.of_nat k)); [apply Z.pow2_bits_false; lia|apply Z.bits_0].
Qed.

Lemma bits_below_all k z : 0 <= z < 2 ^ Z.of_nat k -> bits_below k z = z.
Proof.
  intros Hz. apply Z.bits_inj'. intros j Hj. rewrite bits_below_spec by exact Hj.
  destruct (Z.ltb_spec j (Z.of_nat k)); [reflexivity|]. simpl. symmetry.
  destruct (Z.eq_dec z 0) as [->|Hz0]; [apply Z.bits_0|].
  apply Z.bits_above_log2; [lia|]. apply Z.log2_lt_pow2; [lia|].
  eapply Z.lt_le_trans; [apply Hz|]. apply Z.pow_le_mono_r; lia.
Qed.

Lemma zs_bits n d k z i : 2 <= n <= 32 -> 0 <= d < n -> (k <= 32)%nat -> 0 <= i ->
  Z.testbit (zs_fun n d (bits_below k z)) i
  = (n * i + (n - d - 1) <? Z.of_nat k) && Z.testbit z (n * i + (n - d - 1)).
Proof.
  intros Hn Hd Hk Hi. induction k as [|k IH].
  - simpl. rewrite zs_0, Z.bits_0. destruct (Z.ltb_spec (n * i + (n - d - 1)) 0); [nia|reflexivity].
  - cbn [bits_below]. rewrite zs_lor, Z.lor_spec, IH by lia. clear IH.
    set (t := n * i + (n - d - 1)). set (b := Z.of_nat k).
    assert (Hb : Z.testbit (zs_fun n d (if Z.testbit z b then 2 ^ b else 0)) i = Z.testbit z b && (b =? t)).
    { destruct (Z.testbit z b); [|rewrite zs_0, Z.bits_0; reflexivity]. simpl.
      rewrite zs_one by lia. unfold zs_bit.
      destruct (Z.leb_spec (n - d - 1) b) as [Hle|Hlt]; simpl.
      - destruct (Z.eqb_spec ((b - (n - d - 1)) mod n) 0) as [Hm|Hm].
        + set (q := (b - (n - d - 1)) / n).
          assert (Hbq : b = n * q + (n - d - 1)).
          { pose proof (Z.div_mod (b - (n - d - 1)) n). unfold q. lia. }
          assert (Hq0 : 0 <= q) by (apply Z.div_pos; lia).
          rewrite Z.pow2_bits_eqb by exact Hq0. destruct (Z.eqb_spec q i) as [->|Hqi].
          * symmetry. apply Z.eqb_eq. exact Hbq.
          * symmetry. apply Z.eqb_neq. unfold t. intros E. apply Hqi. nia.
        + rewrite Z.bits_0. symmetry. apply Z.eqb_neq. unfold t. intros E. apply Hm.
          replace (b - (n - d - 1)) with (i * n) by lia. apply Z.mod_mul. lia.
      - rewrite Z.bits_0. symmetry. apply Z.eqb_neq. unfold t. nia. }
    rewrite Hb. destruct (Z.eqb_spec b t) as [<-|Hne].
    + destruct (Z.ltb_spec b (Z.of_nat (S k))); [|lia].
      fold b. rewrite Z.ltb_irrefl. simpl. rewrite andb_true_r. reflexivity.
    + rewrite andb_false_r, orb_false_r. f_equal.
      destruct (Z.ltb_spec t (Z.of_nat k)), (Z.ltb_spec t (Z.of_nat (S k))); lia.
Qed.

Theorem zc_special_bits n d z i :
  2 <= n <= 32 -> 0 <= d < n -> 0 <= z < 2 ^ 32 -> 0 <= i ->
  exists r, zc_special n d z = Some r /\ Z.testbit r i = Z.testbit z (n * i + (n - d - 1)).
Proof.
  intros Hn Hd Hz Hi. exists (zs_fun n d z). split.
  - unfold zc_special. fold (zs_fun n d z).
    assert (H : 2 ^ Z.of_nat (zc_num_iter 7 n) < 64).
    { assert (G : forallb (fun n => 2 ^ Z.of_nat (zc_num_iter 7 n) <? 64) (map (Z.add 2) (zseq 31)) = true)
        by (vm_compute; reflexivity).
      rewrite forallb_forall in G. apply Z.ltb_lt, G. apply in_map_iff. exists (n - 2). split; [lia|]. apply zseq_In. lia. }
    apply Z.ltb_lt in H. rewrite H. reflexivity.
  - rewrite <- (bits_below_all 32 z) at 1 by exact Hz. rewrite zs_bits by (try assumption; lia).
    destruct (Z.ltb_spec (n * i + (n - d - 1)) (Z.of_nat 32)); [reflexivity|]. simpl. symmetry.
    destruct (Z.eq_dec z 0) as [->|Hz0]; [apply Z.bits_0|].
    apply Z.bits_above_log2; [lia|]. apply Z.log2_lt_pow2; [lia|].
    eapply Z.lt_le_trans; [apply Hz|]. apply Z.pow_le_mono_r; lia.
Qed.
