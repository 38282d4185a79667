(** * Tactics and elementary lemmas shared by the proof files *)

From Coq Require Export Lia ZifyBool ZifyNat ZifyN Permutation Sorted.
From Verif Require Export Base.
Ltac Zify.zify_post_hook ::= Z.div_mod_to_equations.

Lemma W_eq : W = 18446744073709551616. Proof. reflexivity. Qed.
Lemma W_pos : 0 < W. Proof. reflexivity. Qed.
Global Opaque W.

Lemma u64_range z : 0 <= u64 z < W.
Proof. apply Z.mod_pos_bound, W_pos. Qed.
Lemma u64_small z : 0 <= z < W -> u64 z = z.
Proof. intros H. apply Z.mod_small, H. Qed.
Lemma u64_u64 z : u64 (u64 z) = u64 z.
Proof. apply u64_small, u64_range. Qed.
Lemma u64_add_l a b : u64 (u64 a + b) = u64 (a + b).
Proof. apply Zplus_mod_idemp_l. Qed.
Lemma u64_add_r a b : u64 (a + u64 b) = u64 (a + b).
Proof. apply Zplus_mod_idemp_r. Qed.
Lemma u64_sub_l a b : u64 (u64 a - b) = u64 (a - b).
Proof. apply Zminus_mod_idemp_l. Qed.
Lemma u64_sub_r a b : u64 (a - u64 b) = u64 (a - b).
Proof. apply Zminus_mod_idemp_r. Qed.
Lemma u64_mul_l a b : u64 (u64 a * b) = u64 (a * b).
Proof. apply Zmult_mod_idemp_l. Qed.
Lemma u64_mul_r a b : u64 (a * u64 b) = u64 (a * b).
Proof. apply Zmult_mod_idemp_r. Qed.
Lemma u64_0 : u64 0 = 0. Proof. reflexivity. Qed.

Ltac inv H := inversion H; subst; clear H.
Ltac bdestr :=
  repeat match goal with
  | |- context [Z.eqb ?a ?b] => destruct (Z.eqb_spec a b); subst
  | |- context [Z.ltb ?a ?b] => destruct (Z.ltb_spec a b); subst
  | |- context [Z.leb ?a ?b] => destruct (Z.leb_spec a b); subst
  end.

(** [nthz] *)
Lemma nthz_nth_error {A} (l : list A) z :
  nthz l z = if (0 <=? z) then nth_error l (Z.to_nat z) else None.
Proof.
  revert z. induction l as [|x l IH]; intros z; simpl.
  - destruct (0 <=? z); [destruct (Z.to_nat z)|]; reflexivity.
  - destruct (Z.eqb_spec z 0) as [->|Hz]; [reflexivity|].
    rewrite IH. destruct (Z.leb_spec 0 z); destruct (Z.leb_spec 0 (z - 1)); try lia; auto.
    replace (Z.to_nat z) with (S (Z.to_nat (z - 1))) by lia. reflexivity.
Qed.

Lemma nthz_Some_range {A} (l : list A) z x :
  nthz l z = Some x -> 0 <= z < Z.of_nat (List.length l).
Proof.
  rewrite nthz_nth_error. destruct (Z.leb_spec 0 z); [|discriminate].
  intros E. assert (Hlt : (Z.to_nat z < List.length l)%nat) by (apply nth_error_Some; congruence). lia.
Qed.

Lemma nthz_range_Some {A} (l : list A) z :
  0 <= z < Z.of_nat (List.length l) -> exists x, nthz l z = Some x.
Proof.
  intros H. rewrite nthz_nth_error. destruct (Z.leb_spec 0 z); [|lia].
  destruct (nth_error l (Z.to_nat z)) eqn:E; [eauto|].
  apply nth_error_None in E. lia.
Qed.

Lemma nthz_In {A} (l : list A) z x : nthz l z = Some x -> In x l.
Proof.
  rewrite nthz_nth_error. destruct (0 <=? z); [|discriminate]. apply nth_error_In.
Qed.

Lemma nthz_map {A B} (f : A -> B) l z : nthz (map f l) z = option_map f (nthz l z).
Proof.
  revert z. induction l as [|x l IH]; intros z; simpl; [reflexivity|].
  destruct (z =? 0); [reflexivity|apply IH].
Qed.

(** [zseq] *)
Lemma zseq_In n i : In i (zseq n) <-> 0 <= i < n.
Proof.
  unfold zseq. rewrite in_map_iff. split.
  - intros (k & <- & Hk). apply in_seq in Hk. lia.
  - intros H. exists (Z.to_nat i). split; [lia|]. apply in_seq. lia.
Qed.

Lemma zseq_NoDup n : NoDup (zseq n).
Proof.
  unfold zseq. apply FinFun.Injective_map_NoDup; [|apply seq_NoDup].
  intros a b. apply Nat2Z.inj.
Qed.

Lemma zseq_length n : List.length (zseq n) = Z.to_nat n.
Proof. unfold zseq. rewrite map_length, seq_length. reflexivity. Qed.

Lemma zseq_0 n : n <= 0 -> zseq n = [].
Proof. intros H. unfold zseq. replace (Z.to_nat n) with 0%nat by lia. reflexivity. Qed.

Lemma zseq_S n : 0 <= n -> zseq (n + 1) = zseq n ++ [n].
Proof.
  intros H. unfold zseq. replace (Z.to_nat (n + 1)) with (S (Z.to_nat n)) by lia.
  rewrite seq_S, map_app. simpl. repeat f_equal. lia.
Qed.

(** [omap] *)
Lemma omap_Some_In {A B} (f : A -> option B) l r :
  omap f l = Some r -> forall y, In y r <-> exists x, In x l /\ f x = Some y.
Proof.
  revert r. induction l as [|x l IH]; intros r; simpl.
  - intros E; inv E. intros y; split; [intros []|intros (x & [] & _)].
  - destruct (f x) as [y0|] eqn:Ex; [|discriminate].
    destruct (omap f l) as [ys|]; [|discriminate]. intros E; inv E.
    intros y; simpl. rewrite (IH ys eq_refl). split.
    + intros [->|(x' & Hx & Hf)]; eauto.
    + intros (x' & [->|Hx] & Hf); [left; congruence|eauto].
Qed.

Lemma omap_Some_Forall2 {A B} (f : A -> option B) l r :
  omap f l = Some r <-> Forall2 (fun x y => f x = Some y) l r.
Proof.
  split.
  - revert r. induction l as [|x l IH]; intros r; simpl.
    + intros E; inv E. constructor.
    + destruct (f x) eqn:Ex; [|discriminate]. destruct (omap f l); [|discriminate].
      intros E; inv E. constructor; auto.
  - induction 1 as [|x y l r Hxy _ IH]; simpl; [reflexivity|]. rewrite Hxy, IH. reflexivity.
Qed.

Lemma omap_ext_in {A B} (f g : A -> option B) l :
  (forall x, In x l -> f x = g x) -> omap f l = omap g l.
Proof.
  induction l as [|x l IH]; intros H; simpl; [reflexivity|].
  rewrite (H x) by (left; reflexivity). destruct (g x); [|reflexivity].
  rewrite IH; [reflexivity|]. intros y Hy. apply H. right; exact Hy.
Qed.

Lemma omap_length {A B} (f : A -> option B) l r : omap f l = Some r -> List.length r = List.length l.
Proof.
  intros H. apply omap_Some_Forall2 in H. induction H; simpl; congruence.
Qed.

Lemma Forall2_nthz {A B} (R : A -> B -> Prop) l r k :
  Forall2 R l r ->
  match nthz l k, nthz r k with
  | Some x, Some y => R x y
  | None, None => True
  | _, _ => False
  end.
Proof.
  intros H. revert k. induction H as [|x y l r Hxy _ IH]; intros k; simpl; [exact I|].
  destruct (k =? 0); [exact Hxy|apply IH].
Qed.

Lemma mem_In d ds : mem d ds = true <-> In d ds.
Proof.
  unfold mem. rewrite existsb_exists. split.
  - intros (x & Hx & E). apply Z.eqb_eq in E. subst. exact Hx.
  - intros H. exists d. split; [exact H|apply Z.eqb_refl].
Qed.

Lemma oand_Some a b x : oand a b = Some x <-> exists y z, a = Some y /\ b = Some z /\ x = y && z.
Proof.
  split.
  - destruct a as [y|], b as [z|]; simpl; try discriminate. intros E; inv E. eauto.
  - intros (y & z & -> & -> & ->). reflexivity.
Qed.

Lemma oall_true l : oall l = Some true <-> Forall (fun o => o = Some true) l.
Proof.
  induction l as [|x l IH]; simpl.
  - split; auto.
  - rewrite oand_Some. split.
    + intros (y & z & -> & Hz & E). symmetry in E. apply andb_true_iff in E. destruct E as [-> ->].
      constructor; [reflexivity|]. apply IH, Hz.
    + intros H. inv H. exists true, true. repeat split. apply IH. assumption.
Qed.
