(** * C62: loops over indices written by hand, as in the matrix example *)

From Verif Require Import Check PropsKernel MatrixThms.
From Verif Require Import SpecMatrix.

(** The product of two matrices in any layouts, into a third layout that is large enough: nothing is undefined behaviour, and each element is the sum
    of products of the definition. *)
Theorem C62_multiply : forall a b s n1 m1 n2 n' m' A B, holds a n1 m1 A -> holds b n2 n1 B -> writable a = true -> writable b = true ->
  int_matrix s n' m' -> n2 <= n' -> m1 <= m' -> no_overflow A B n1 n2 m1 ->
  exists r, noarr_multiply a b s = Done r /\ bg_struct r = s /\ writable r = true /\ holds r n' m' (fun i j => if (i <? n2) && (j <? m1) then product A B n1 i j else 0).
Proof. exact multiply_holds. Qed.
Print Assumptions C62_multiply.

(** A copy into any other layout. *)
Theorem C62_copy : forall a s n m n' m' A, holds a n m A -> int_matrix s n' m' -> n <= n' -> m <= m' ->
  exists r, noarr_copy a s = Done r /\ bg_struct r = s /\ writable r = true /\ holds r n' m' (fun i j => if (i <? n) && (j <? m) then A i j else 0).
Proof. exact copy_holds. Qed.
Print Assumptions C62_copy.

(** Transposition in place. *)
Theorem C62_transpose : forall b n A, holds b n n A -> writable b = true ->
  exists r, noarr_transpose b = Done r /\ bg_struct r = bg_struct b /\ writable r = true /\ holds r n n (fun i j => A j i).
Proof. exact transpose_holds. Qed.
Print Assumptions C62_transpose.

(** Multiplication by a number in place. *)
Theorem C62_scale : forall b n m A k, holds b n m A -> writable b = true -> (forall i j, 0 <= i < n -> 0 <= j < m -> is_int (A i j * k)) ->
  exists r, noarr_scale b k = Done r /\ bg_struct r = bg_struct b /\ writable r = true /\ holds r n m (fun i j => A i j * k).
Proof. exact scale_holds. Qed.
Print Assumptions C62_scale.

(** Conversions to and from matrices stored by rows in a [std::vector]. *)
Theorem C62_to_classic : forall b n m A r, holds b n m A -> n * m < W -> exists c, to_classic b r = Done c /\ classic_holds c n m A.
Proof. exact to_classic_holds. Qed.
Print Assumptions C62_to_classic.

Theorem C62_from_classic : forall c s n m n' m' A, classic_holds c n m A -> int_matrix s n' m' -> n <= n' -> m <= m' ->
  exists r, from_classic c s = Done r /\ bg_struct r = s /\ writable r = true /\ holds r n' m' (fun i j => if (i <? n) && (j <? m) then A i j else 0).
Proof. exact from_classic_holds. Qed.
Print Assumptions C62_from_classic.

Theorem C62_round_trip : forall c s n m A r, classic_holds c n m A -> int_matrix s n m -> out_bind (from_classic c s) (fun b => to_classic b r) = Done c.
Proof. exact round_trip. Qed.
Print Assumptions C62_round_trip.

(** The assertion at the end of the example holds for every layout, every size for which the sums fit [int], and all random numbers. *)
Theorem C62_demo : forall size s r1 r2 r3 r4, int_matrix s size size -> 81 * size < 2 ^ 31 -> (forall i, 0 <= r1 i) -> (forall i, 0 <= r2 i) ->
  matrix_demo size s r1 r2 r3 r4 = Done true.
Proof. exact demo_true. Qed.
Print Assumptions C62_demo.

(** The two layouts of the example are layouts of matrices, of every size that fits the address space. *)
Theorem C62_layouts : forall size, 0 <= size -> 4 * size * size < W -> int_matrix (matrix_rows size) size size /\ int_matrix (matrix_columns size) size size.
Proof. intros size H0 H1. split; [exact (layout_rows size H0 H1)|exact (layout_columns size H0 H1)]. Qed.
Print Assumptions C62_layouts.

Theorem C62_main : forall rows arg r1 r2 r3 r4, 1 <= arg -> 81 * arg < 2 ^ 31 -> (forall i, 0 <= r1 i) -> (forall i, 0 <= r2 i) ->
  matrix_main rows arg r1 r2 r3 r4 = Done (Some true).
Proof. exact main_true. Qed.
Print Assumptions C62_main.

(** Finding: a negative size is not rejected.  It becomes a large unsigned number, which passes the test [size < 1], and already printing the first
    matrix reads outside of its vector. *)
Theorem C62_negative_refuted : forall rows arg r1 r2 r3 r4, - 2 ^ 31 <= arg < 0 -> matrix_main rows arg r1 r2 r3 r4 = Undefined.
Proof. exact main_negative. Qed.
Print Assumptions C62_negative_refuted.

(** ** A 4 by 6 matrix in tiles of 2 by 3, and a 6 by 4 matrix by columns, from the last column to the first one *)
Definition mx_tiled : struct := View (VMerge 1 2 dn) (View (VMerge 3 4 dm) (vec 1 (Dyn 2) (vec 3 (Dyn 2) (vec 2 (Dyn 2) (vec 4 (Dyn 3) (Scalar int_t)))))).
Definition mx_back : struct := View (VReverse dn) (vec dn (Dyn 6) (vec dm (Dyn 4) (Scalar int_t))).

Lemma mx_layouts : int_matrix mx_tiled 4 6 /\ int_matrix mx_back 6 4.
Proof.
  split.
  - split; [apply kn_cube; vm_compute; reflexivity|]. split; [|split; [reflexivity|split; [intros E; discriminate E|]]].
    + split; [vm_compute; reflexivity|]. split; [apply lenokb_sound; vm_compute; reflexivity|]. split; [|rewrite W_eq; vm_compute; reflexivity].
      intros a. unfold mx_tiled, vec. cbn [good view_good]. rewrite W_eq. vm_compute. tauto.
    + intros i j. exists int_t. eexists. split; [reflexivity|]. split; reflexivity.
  - split; [apply kn_cube; vm_compute; reflexivity|]. split; [|split; [reflexivity|split; [intros E; discriminate E|]]].
    + split; [vm_compute; reflexivity|]. split; [apply lenokb_sound; vm_compute; reflexivity|]. split; [|rewrite W_eq; vm_compute; reflexivity]. intros a. unfold mx_back, vec. cbn. tauto.
    + intros i j. exists int_t. eexists. split; [reflexivity|]. split; reflexivity.
Qed.

Definition mx_1 : classic := random_classic 4 6 (fun i => i).
Definition mx_2 : classic := random_classic 6 4 (fun i => 3 * i + 1).
Definition mx_A (i j : Z) : Z := Z.rem (j * 4 + i) 10.
Definition mx_B (i j : Z) : Z := Z.rem (3 * (j * 6 + i) + 1) 10.
Definition mx_get (o : outcome bag) : bag := match o with Done b => b | _ => make_bag_at mx_tiled true [] end.
Definition mx_a : bag := mx_get (from_classic mx_1 mx_tiled).
Definition mx_b : bag := mx_get (from_classic mx_2 mx_back).

Lemma mx_classic : classic_holds mx_1 4 6 mx_A /\ classic_holds mx_2 6 4 mx_B.
Proof.
  split.
  - apply (cl_random 4 6 (fun i => i)); rewrite W_eq; lia.
  - apply (cl_random 6 4 (fun i => 3 * i + 1)); rewrite W_eq; lia.
Qed.

Lemma mx_holds : holds mx_a 4 6 mx_A /\ holds mx_b 6 4 mx_B.
Proof.
  destruct mx_classic as [H1 H2], mx_layouts as [L1 L2]. unfold mx_a, mx_b. split.
  - destruct (C62_from_classic mx_1 mx_tiled 4 6 4 6 mx_A H1 L1) as (r & -> & _ & _ & H); [lia|lia|]. revert H. apply MatrixFacts.holds_same. intros i j Hi Hj. replace ((i <? 4) && (j <? 6)) with true by lia. reflexivity.
  - destruct (C62_from_classic mx_2 mx_back 6 4 6 4 mx_B H2 L2) as (r & -> & _ & _ & H); [lia|lia|]. revert H. apply MatrixFacts.holds_same. intros i j Hi Hj. replace ((i <? 6) && (j <? 4)) with true by lia. reflexivity.
Qed.

Lemma mx_small : no_overflow mx_A mx_B 4 6 6.
Proof.
  intros i j k Hi Hj Hk.
  assert (R : forall x, 0 <= x -> 0 <= Z.rem x 10 <= 9) by (intros x Hx; pose proof (Z.rem_bound_pos x 10 Hx); lia).
  assert (S : 0 <= product mx_A mx_B (k + 1) i j <= 81 * (k + 1)).
  { unfold product. assert (G : forall l, 0 <= l -> 0 <= sum l (fun k => mx_A k j * mx_B i k) <= 81 * l); [|apply G; lia]. apply natlike_ind; [vm_compute; split; discriminate|]. intros l Hl IH.
    rewrite <- Z.add_1_r, sum_next by exact Hl. pose proof (R (j * 4 + l) ltac:(lia)). pose proof (R (3 * (l * 6 + i) + 1) ltac:(lia)). unfold mx_A, mx_B in *. nia. }
  pose proof (R (j * 4 + k) ltac:(lia)). pose proof (R (3 * (k * 6 + i) + 1) ltac:(lia)). unfold is_int, mx_A, mx_B in *. split; nia.
Qed.

(** The hypotheses of the theorems hold; the elements are where the layout says; the product and the transposed product are as expected. *)
Example C62_ex : holds mx_a 4 6 mx_A /\ holds mx_b 6 4 mx_B /\ writable mx_a = true /\ writable mx_b = true /\ int_matrix (matrix_columns 6) 6 6 /\ no_overflow mx_A mx_B 4 6 6 /\
  firstn 28 (bg_data mx_a) = concat (map int_bytes [0; 4; 8; 1; 5; 9; 2]) /\
  exists r t, noarr_multiply mx_a mx_b (matrix_columns 6) = Done r /\ holds r 6 6 (product mx_A mx_B 4) /\
    noarr_transpose r = Done t /\ holds t 6 6 (fun i j => product mx_A mx_B 4 j i) /\ product mx_A mx_B 4 2 5 = 14 /\ get_int r 2 5 = Done 14 /\ get_int t 5 2 = Done 14.
Proof.
  destruct mx_holds as [Ha Hb]. assert (Hc : int_matrix (matrix_columns 6) 6 6) by (apply C62_layouts; rewrite ?W_eq; lia). assert (Wa : writable mx_a = true) by (vm_compute; reflexivity). assert (Wb : writable mx_b = true) by (vm_compute; reflexivity).
  split; [exact Ha|]. split; [exact Hb|]. split; [exact Wa|]. split; [exact Wb|]. split; [exact Hc|]. split; [exact mx_small|]. split; [vm_compute; reflexivity|].
  destruct (C62_multiply mx_a mx_b (matrix_columns 6) 4 6 6 6 6 mx_A mx_B Ha Hb Wa Wb Hc) as (r & E & _ & Hw & Hr); [lia|lia|exact mx_small|].
  apply (MatrixFacts.holds_same _ _ _ _ (product mx_A mx_B 4)) in Hr; [|intros i j Hi Hj; replace ((i <? 6) && (j <? 6)) with true by lia; reflexivity].
  destruct (C62_transpose r 6 _ Hr Hw) as (t & Et & _ & _ & Ht). exists r, t. split; [exact E|]. split; [exact Hr|]. split; [exact Et|]. split; [exact Ht|]. assert (P : product mx_A mx_B 4 2 5 = 14) by (vm_compute; reflexivity). split; [exact P|].
  destruct Hr as (_ & _ & Hr). destruct (Hr 2 5) as [_ ->]; [lia|lia|]. destruct Ht as (_ & _ & Ht). destruct (Ht 5 2) as [_ ->]; [lia|lia|]. rewrite P. auto.
Qed.

(** Running the program. *)
Example C62_main_ex : matrix_main true 3 (fun i => i) (fun i => 7 * i) (fun i => 5) (fun i => i * i) = Done (Some true) /\ matrix_main false 0 (fun i => i) (fun i => i) (fun i => i) (fun i => i) = Done None.
Proof. split; vm_compute; reflexivity. Qed.
