(** * What the functions of the matrix example compute *)

From Verif Require Import MatrixFacts KernelThms BagFacts StateFacts SigFacts.
From Verif Require Import SpecMatrix.

(** ** Loops that write every element *)

Section Fill.
  Variables (n m n' m' : Z) (B G : Z -> Z -> Z) (f : Z -> Z -> bag -> outcome bag).
  Hypotheses (Hn : 0 <= n <= n') (Hm : 0 <= m <= m').
  Hypothesis Hf : forall i j b A, 0 <= i < n -> 0 <= j < m -> holds b n' m' A -> A i j = B i j -> f i j b = put_int b i j (G i j).
  Hypothesis HG : forall i j, 0 <= i < n -> 0 <= j < m -> is_int (G i j).

  Lemma fill_loop b : holds b n' m' B -> writable b = true ->
    exists r, for_range 0 n (fun i => for_range 0 m (f i)) b = Done r /\ bg_struct r = bg_struct b /\ writable r = true /\
      holds r n' m' (fun p q => if (p <? n) && (q <? m) then G p q else B p q).
  Proof.
    intros Hb Hw.
    destruct (for_inv2 (fun i j r => bg_struct r = bg_struct b /\ writable r = true /\ holds r n' m' (fun p q => if (q <? m) && ((p <? i) || (p =? i) && (q <? j)) then G p q else B p q)) f n m b) as (r & E & H1 & H2 & H3).
    - lia.
    - lia.
    - split; [reflexivity|]. split; [exact Hw|]. revert Hb. apply holds_same. intros p q Hp Hq. replace ((q <? m) && ((p <? 0) || (p =? 0) && (q <? 0))) with false by lia. reflexivity.
    - intros i x Hi (H1 & H2 & H3). split; [exact H1|]. split; [exact H2|]. revert H3. apply holds_same. intros p q Hp Hq.
      replace ((q <? m) && ((p <? i) || (p =? i) && (q <? m))) with ((q <? m) && ((p <? i + 1) || (p =? i + 1) && (q <? 0))) by lia. reflexivity.
    - intros i j x Hi Hj (H1 & H2 & H3).
      destruct (put_holds n' m' x _ i j (G i j) H3 H2 ltac:(lia) ltac:(lia) (HG i j Hi Hj)) as (x' & E & P1 & P2 & P3).
      exists x'. split; [rewrite (Hf i j x _ Hi Hj H3); [exact E|]|].
      + cbn beta. replace ((j <? m) && ((i <? i) || (i =? i) && (j <? j))) with false by lia. reflexivity.
      + split; [congruence|]. split; [exact P2|]. revert P1. apply holds_same. intros p q Hp Hq. unfold set_at. destruct ((p =? i) && (q =? j)) eqn:Epq.
        * assert (p = i) by lia. assert (q = j) by lia. subst p q. replace ((j <? m) && ((i <? i) || (i =? i) && (j <? j + 1))) with true by lia. reflexivity.
        * replace ((q <? m) && ((p <? i) || (p =? i) && (q <? j + 1))) with ((q <? m) && ((p <? i) || (p =? i) && (q <? j))) by lia. reflexivity.
    - exists r. split; [exact E|]. split; [exact H1|]. split; [exact H2|]. revert H3. apply holds_same. intros p q Hp Hq.
      replace ((q <? m) && ((p <? n) || (p =? n) && (q <? 0))) with ((p <? n) && (q <? m)) by lia. reflexivity.
  Qed.
End Fill.

Theorem copy_holds a s n m n' m' A : holds a n m A -> int_matrix s n' m' -> n <= n' -> m <= m' ->
  exists r, noarr_copy a s = Done r /\ bg_struct r = s /\ writable r = true /\ holds r n' m' (fun i j => if (i <? n) && (j <? m) then A i j else 0).
Proof.
  intros (Ha & He & Hv) Hs Hn Hm. destruct (matrix_lens _ _ _ Ha) as [Ln Lm]. unfold noarr_copy. destruct (make_holds n' m' s Hs) as (b & -> & Hb & Hw & <-). cbn [out_bind].
  rewrite (len_n n m a Ha), (len_m n m a Ha). cbn [out_bind]. apply fill_loop; [lia|lia| | |exact Hb|exact Hw].
  - intros i j x X Hi Hj _ _. destruct (Hv i j Hi Hj) as [_ ->]. reflexivity.
  - intros i j Hi Hj. apply Hv; assumption.
Qed.

Theorem scale_holds b n m A k : holds b n m A -> writable b = true -> (forall i j, 0 <= i < n -> 0 <= j < m -> is_int (A i j * k)) ->
  exists r, noarr_scale b k = Done r /\ bg_struct r = bg_struct b /\ writable r = true /\ holds r n m (fun i j => A i j * k).
Proof.
  intros Hb Hw Hk. pose proof Hb as (Ha & He & Hv). destruct (matrix_lens _ _ _ Ha) as [Ln Lm]. unfold noarr_scale. rewrite (len_n n m b Ha), (len_m n m b Ha). cbn [out_bind].
  destruct (fill_loop n m n m A (fun i j => A i j * k) (fun i j b => out_bind (get_int b i j) (fun v => out_bind (int_mul v k) (put_int b i j)))) with (b := b) as (r & E & H1 & H2 & H3); try assumption; try lia.
  - intros i j x X Hi Hj (_ & _ & HX) Hij. destruct (HX i j Hi Hj) as [_ ->]. cbn [out_bind]. rewrite Hij, int_mul_ok by (apply Hk; assumption). reflexivity.
  - exists r. split; [exact E|]. split; [exact H1|]. split; [exact H2|]. revert H3. apply holds_same. intros i j Hi Hj. replace ((i <? n) && (j <? m)) with true by lia. reflexivity.
Qed.

(** ** Products *)

Lemma sum_next k g : 0 <= k -> sum (k + 1) g = sum k g + g k.
Proof.
  intros Hk. unfold sum. rewrite zseq_S, map_app by exact Hk. cbn [map]. induction (map g (zseq k)) as [|x l IH]; cbn [app fold_right]; [lia|]. rewrite IH. lia.
Qed.

Lemma dot_product (f : Z -> Z -> outcome Z) A B n1 i j : 0 <= n1 ->
  (forall k s, 0 <= k < n1 -> f k s = out_bind (int_mul (A k j) (B i k)) (int_add s)) ->
  (forall k, 0 <= k < n1 -> is_int (A k j * B i k) /\ is_int (product A B (k + 1) i j)) ->
  for_range 0 n1 f 0 = Done (product A B n1 i j).
Proof.
  intros Hn Hf Ho. destruct (for_inv (fun k s => s = product A B k i j) f 0 n1 0 Hn eq_refl) as (s & E & ->); [|exact E].
  intros k s Hk ->. exists (product A B (k + 1) i j). split; [|reflexivity]. destruct (Ho k Hk) as [H1 H2]. rewrite (Hf k _ Hk), int_mul_ok by exact H1. cbn [out_bind].
  unfold product in *. rewrite sum_next in H2 |- * by lia. apply int_add_ok, H2.
Qed.

Lemma product_int A B n1 n2 m1 i j : 0 <= n1 -> no_overflow A B n1 n2 m1 -> 0 <= i < n2 -> 0 <= j < m1 -> is_int (product A B n1 i j).
Proof.
  intros Hn Ho Hi Hj. destruct (Z.eq_dec n1 0) as [->|Hne]; [vm_compute; split; [discriminate|reflexivity]|].
  replace n1 with (n1 - 1 + 1) by lia. apply (Ho i j (n1 - 1)); lia.
Qed.

Theorem multiply_holds a b s n1 m1 n2 n' m' A B : holds a n1 m1 A -> holds b n2 n1 B -> writable a = true -> writable b = true ->
  int_matrix s n' m' -> n2 <= n' -> m1 <= m' -> no_overflow A B n1 n2 m1 ->
  exists r, noarr_multiply a b s = Done r /\ bg_struct r = s /\ writable r = true /\ holds r n' m' (fun i j => if (i <? n2) && (j <? m1) then product A B n1 i j else 0).
Proof.
  intros (Ha & Ea & Va) (Hb & Eb & Vb) Wa Wb Hs Hn' Hm' Ho. destruct (matrix_lens _ _ _ Ha) as [L1 L2]. destruct (matrix_lens _ _ _ Hb) as [L3 _].
  unfold noarr_multiply. rewrite Wa, Wb. cbn [andb need out_bind]. destruct (make_holds n' m' s Hs) as (c & -> & Hc & Hw & <-). cbn [out_bind].
  rewrite (len_n n1 m1 a Ha), (len_m n1 m1 a Ha), (len_n n2 n1 b Hb), (len_m n2 n1 b Hb). cbn [out_bind]. rewrite Z.eqb_refl. cbn [must out_bind].
  apply fill_loop; [lia|lia| | |exact Hc|exact Hw].
  - intros i j x X Hi Hj _ _. rewrite (dot_product _ A B n1 i j); [reflexivity|lia| |intros k Hk; apply Ho; assumption].
    intros k t Hk. destruct (Va k j Hk Hj) as [_ ->]. destruct (Vb i k Hi Hk) as [_ ->]. reflexivity.
  - intros i j Hi Hj. apply (product_int A B n1 n2 m1); try assumption. lia.
Qed.

(** ** Transposition *)

Definition swapped (A : Z -> Z -> Z) (i j p q : Z) : Z :=
  if (Z.min p q <? i) || (Z.min p q =? i) && (Z.max p q <? j) then A q p else A p q.

Theorem transpose_holds b n A : holds b n n A -> writable b = true ->
  exists r, noarr_transpose b = Done r /\ bg_struct r = bg_struct b /\ writable r = true /\ holds r n n (fun i j => A j i).
Proof.
  intros Hb Hw. pose proof Hb as (Ha & He & Hv). destruct (matrix_lens _ _ _ Ha) as [Ln _]. unfold noarr_transpose. rewrite (len_n n n b Ha), (len_m n n b Ha). cbn [out_bind]. rewrite Z.eqb_refl. cbn [must out_bind].
  destruct (for_inv (fun i r => bg_struct r = bg_struct b /\ writable r = true /\ holds r n n (swapped A i i)) (fun i => for_range i n (fun j b => swap_ints b i j)) 0 n b) as (r & E & H1 & H2 & H3).
  - lia.
  - split; [reflexivity|]. split; [exact Hw|]. revert Hb. apply holds_same. intros p q Hp Hq. unfold swapped. destruct (_ || _) eqn:X; [lia|reflexivity].
  - intros i x Hi (H1 & H2 & H3).
    destruct (for_inv (fun j r => bg_struct r = bg_struct b /\ writable r = true /\ holds r n n (swapped A i j)) (fun j b => swap_ints b i j) i n x) as (x' & E & G1 & G2 & G3).
    + lia.
    + auto.
    + intros j y Hj (F1 & F2 & F3). pose proof F3 as (_ & _ & V3). destruct (V3 i j Hi ltac:(lia)) as [I1 G1]. destruct (V3 j i ltac:(lia) Hi) as [I2 G2]. unfold swap_ints. rewrite G1, G2. cbn [out_bind].
      destruct (put_holds n n y _ i j _ F3 F2 Hi ltac:(lia) I2) as (y1 & -> & P1 & P2 & P3). cbn [out_bind].
      destruct (put_holds n n y1 _ j i _ P1 P2 ltac:(lia) Hi I1) as (y2 & -> & Q1 & Q2 & Q3). exists y2. split; [reflexivity|]. split; [congruence|]. split; [exact Q2|].
      revert Q1. apply holds_same. intros p q Hp Hq. unfold set_at. destruct ((p =? j) && (q =? i)) eqn:X1; [|destruct ((p =? i) && (q =? j)) eqn:X2].
      * assert (p = j) by lia. assert (q = i) by lia. subst p q. unfold swapped. replace (_ || _) with true by lia. replace ((Z.min i j <? i) || (Z.min i j =? i) && (Z.max i j <? j)) with false by lia. reflexivity.
      * assert (p = i) by lia. assert (q = j) by lia. subst p q. unfold swapped. replace ((Z.min i j <? i) || (Z.min i j =? i) && (Z.max i j <? j + 1)) with true by lia.
        replace (_ || _) with false by lia. reflexivity.
      * unfold swapped. replace ((Z.min p q <? i) || (Z.min p q =? i) && (Z.max p q <? j + 1)) with ((Z.min p q <? i) || (Z.min p q =? i) && (Z.max p q <? j)) by lia. reflexivity.
    + exists x'. split; [exact E|]. split; [exact G1|]. split; [exact G2|]. revert G3. apply holds_same. intros p q Hp Hq. unfold swapped.
      replace ((Z.min p q <? i) || (Z.min p q =? i) && (Z.max p q <? n)) with ((Z.min p q <? i + 1) || (Z.min p q =? i + 1) && (Z.max p q <? i + 1)) by lia. reflexivity.
  - exists r. split; [exact E|]. split; [exact H1|]. split; [exact H2|]. revert H3. apply holds_same. intros p q Hp Hq. unfold swapped. replace (_ || _) with true by lia. reflexivity.
Qed.

(** ** Classic matrices *)

Section Classic.
  Variables (n m : Z).

  Lemma cl_index c A i j : classic_holds c n m A -> 0 <= i < n -> 0 <= j < m -> cl_pos c i j = j * n + i /\ 0 <= j * n + i < n * m.
  Proof.
    intros (E & _ & Hn & Hm & Hnm & _) Hi Hj. assert (0 <= j * n + i < n * m) by nia. split; [|assumption]. unfold cl_pos. rewrite E, Z.add_comm. apply u64_small. lia.
  Qed.
  Lemma cl_get_holds c A i j : classic_holds c n m A -> 0 <= i < n -> 0 <= j < m -> cl_get c i j = Done (A i j).
  Proof. intros H Hi Hj. unfold cl_get. destruct (cl_index c A i j H Hi Hj) as [-> _]. destruct H as (_ & _ & _ & _ & _ & _ & H). destruct (H i j Hi Hj) as [_ ->]. reflexivity. Qed.

  Lemma nthz_put {T} (l : list T) p v q : 0 <= p < Z.of_nat (List.length l) ->
    nthz (firstn (Z.to_nat p) l ++ v :: skipn (S (Z.to_nat p)) l) q = if q =? p then Some v else nthz l q.
  Proof.
    intros Hp. rewrite !nthz_nth_error. destruct (Z.leb_spec 0 q) as [Hq|Hq]; [|destruct (Z.eqb_spec q p); [lia|reflexivity]].
    destruct (Z.ltb_spec q p) as [H|H].
    - rewrite nth_error_app1 by (rewrite firstn_length; lia). destruct (Z.eqb_spec q p); [lia|]. rewrite nth_error_first. destruct (Nat.ltb_spec (Z.to_nat q) (Z.to_nat p)); [reflexivity|lia].
    - rewrite nth_error_app2 by (rewrite firstn_length; lia). rewrite firstn_length, Nat.min_l by lia. destruct (Z.eqb_spec q p) as [->|Hne]; [rewrite Nat.sub_diag; reflexivity|].
      replace (Z.to_nat q - Z.to_nat p)%nat with (S (Z.to_nat q - Z.to_nat p - 1)) by lia. cbn [nth_error]. rewrite nth_error_skip. f_equal. lia.
  Qed.

  Lemma cl_put_holds c A i j z : classic_holds c n m A -> 0 <= i < n -> 0 <= j < m -> is_int z -> exists c', cl_put c i j z = Done c' /\ classic_holds c' n m (set_at A i j z).
  Proof.
    intros H Hi Hj Hz. destruct (cl_index c A i j H Hi Hj) as [E Hr]. unfold cl_put. rewrite E. destruct H as (E1 & E2 & Hn & Hm & Hnm & Hl & Hv). destruct (Hv i j Hi Hj) as [_ Hij]. rewrite Hij.
    eexists. split; [reflexivity|]. split; [exact E1|]. split; [exact E2|]. repeat (split; [assumption|]). cbn [cl_ary]. split.
    - rewrite app_length, firstn_length. cbn [List.length]. rewrite skipn_length. lia.
    - intros p q Hp Hq. destruct (Hv p q Hp Hq) as [V1 V2]. rewrite nthz_put by lia. unfold set_at. destruct ((p =? i) && (q =? j)) eqn:X.
      + assert (p = i) by lia. assert (q = j) by lia. subst p q. rewrite Z.eqb_refl. auto.
      + destruct (Z.eqb_spec (q * n + p) (j * n + i)) as [Y|Y]; [|auto]. exfalso. assert (q = j) by nia. subst q. lia.
  Qed.

  Lemma cl_same c A B : (forall i j, 0 <= i < n -> 0 <= j < m -> B i j = A i j) -> classic_holds c n m A -> classic_holds c n m B.
  Proof. intros H (H1 & H2 & H3 & H4 & H5 & H6 & H7). repeat (split; [assumption|]). intros i j Hi Hj. rewrite (H i j Hi Hj). auto. Qed.

  Lemma cl_random r : 0 <= n < W -> 0 <= m < W -> n * m < W -> classic_holds (random_classic n m r) n m (fun i j => Z.rem (r (j * n + i)) 10).
  Proof.
    intros Hn Hm Hnm. split; [reflexivity|]. split; [reflexivity|]. repeat (split; [assumption|]). cbn [cl_ary random_classic]. rewrite u64_small by nia. split; [rewrite map_length, zseq_length; nia|].
    intros i j Hi Hj. split.
    - pose proof (Z.rem_bound_abs (r (j * n + i)) 10). unfold is_int. lia.
    - rewrite nthz_map, nthz_zseq. assert (Hr : 0 <= j * n + i < n * m) by nia. replace ((0 <=? j * n + i) && (j * n + i <? n * m)) with true by lia. reflexivity.
  Qed.

  Lemma cl_unique c c' A : classic_holds c n m A -> classic_holds c' n m A -> c' = c.
  Proof.
    intros (E1 & E2 & Hn & Hm & Hnm & Hl & Hv) (E1' & E2' & _ & _ & _ & Hl' & Hv'). destruct c as [cn cm l], c' as [cn' cm' l']. cbn in *. subst cn cm cn' cm'. f_equal.
    apply nth_error_ext. intros k. destruct (Nat.ltb_spec k (List.length l)) as [Hk|Hk]; [|rewrite !(proj2 (nth_error_None _ _)) by lia; reflexivity].
    assert (Hnp : 0 < n) by nia. set (z := Z.of_nat k). assert (Hz : z = z / n * n + z mod n) by (rewrite Z.mul_comm; apply Z.div_mod; lia).
    pose proof (Z.mod_pos_bound z n Hnp) as Hi. assert (Hj : 0 <= z / n < m) by (split; [apply Z.div_pos; lia|apply Z.div_lt_upper_bound; lia]).
    destruct (Hv _ _ Hi Hj) as [_ X]. destruct (Hv' _ _ Hi Hj) as [_ X']. rewrite <- Hz in X, X'. rewrite nthz_nth_error in X, X'. destruct (Z.leb_spec 0 z); [|lia]. unfold z in X, X'. rewrite Nat2Z.id in X, X'. congruence.
  Qed.

  Lemma cl_print_done c A : classic_holds c n m A -> cl_print c = Done tt.
  Proof.
    intros H. pose proof H as (E1 & E2 & Hn & Hm & _). unfold cl_print. rewrite E1, E2.
    destruct (for_inv2 (fun _ _ (u : unit) => True) (fun i j u => out_map (fun _ => u) (cl_get c i j)) n m tt) as ([] & E & _); [lia|lia|exact I|intros; exact I| |exact E].
    intros i j x Hi Hj _. exists x. rewrite (cl_get_holds c A i j H Hi Hj). auto.
  Qed.

  Lemma cl_equal c A : classic_holds c n m A -> equal_classic c c = Done true.
  Proof.
    intros (E1 & E2 & Hn & Hm & Hnm & Hl & _). unfold equal_classic. rewrite !Z.eqb_refl. cbn [negb]. rewrite E1, E2, u64_small by nia.
    destruct (for_inv (fun _ (x : bool) => x = true) (fun i (same : bool) => if same then match nthz (cl_ary c) i, nthz (cl_ary c) i with Some a, Some b => Done (a =? b) | _, _ => Undefined end else Done false) 0 (n * m) true) as (x & E & ->); [nia|reflexivity| |exact E].
    intros i x Hi ->. destruct (nthz_range_Some (cl_ary c) i) as (v & ->); [lia|]. exists (v =? v). split; [reflexivity|apply Z.eqb_refl].
  Qed.

  (** Loops that write every element. *)
  Lemma cl_fill (f : Z -> Z -> classic -> outcome classic) G c A : classic_holds c n m A ->
    (forall i j c, 0 <= i < n -> 0 <= j < m -> f i j c = cl_put c i j (G i j)) -> (forall i j, 0 <= i < n -> 0 <= j < m -> is_int (G i j)) ->
    exists r, for_range 0 n (fun i => for_range 0 m (f i)) c = Done r /\ classic_holds r n m G.
  Proof.
    intros Hc Hf HG. pose proof Hc as (_ & _ & Hn & Hm & _).
    destruct (for_inv2 (fun i j r => classic_holds r n m (fun p q => if (p <? i) || (p =? i) && (q <? j) then G p q else A p q)) f n m c) as (r & E & H).
    - lia.
    - lia.
    - revert Hc. apply cl_same. intros p q Hp Hq. replace ((p <? 0) || (p =? 0) && (q <? 0)) with false by lia. reflexivity.
    - intros i x Hi. apply cl_same. intros p q Hp Hq. replace ((p <? i) || (p =? i) && (q <? m)) with ((p <? i + 1) || (p =? i + 1) && (q <? 0)) by lia. reflexivity.
    - intros i j x Hi Hj Hx. destruct (cl_put_holds x _ i j (G i j) Hx Hi Hj (HG i j Hi Hj)) as (x' & E & Hx'). exists x'. split; [rewrite Hf by assumption; exact E|].
      revert Hx'. apply cl_same. intros p q Hp Hq. unfold set_at. destruct ((p =? i) && (q =? j)) eqn:X.
      + assert (p = i) by lia. assert (q = j) by lia. subst p q. replace ((i <? i) || (i =? i) && (j <? j + 1)) with true by lia. reflexivity.
      + replace ((p <? i) || (p =? i) && (q <? j + 1)) with ((p <? i) || (p =? i) && (q <? j)) by lia. reflexivity.
    - exists r. split; [exact E|]. revert H. apply cl_same. intros p q Hp Hq. replace ((p <? n) || (p =? n) && (q <? 0)) with true by lia. reflexivity.
  Qed.
End Classic.

Theorem to_classic_holds b n m A r : holds b n m A -> n * m < W -> exists c, to_classic b r = Done c /\ classic_holds c n m A.
Proof.
  intros (Ha & He & Hv) Hnm. destruct (matrix_lens _ _ _ Ha) as [Ln Lm]. unfold to_classic. rewrite (len_n n m b Ha), (len_m n m b Ha). cbn [out_bind].
  eapply cl_fill; [apply cl_random; assumption| |intros i j Hi Hj; apply Hv; assumption]. intros i j c Hi Hj. destruct (Hv i j Hi Hj) as [_ ->]. reflexivity.
Qed.

Theorem from_classic_holds c s n m n' m' A : classic_holds c n m A -> int_matrix s n' m' -> n <= n' -> m <= m' ->
  exists r, from_classic c s = Done r /\ bg_struct r = s /\ writable r = true /\ holds r n' m' (fun i j => if (i <? n) && (j <? m) then A i j else 0).
Proof.
  intros Hc Hs Hn Hm. pose proof Hc as (E1 & E2 & Ln & Lm & _ & _ & Hv). unfold from_classic. destruct (make_holds n' m' s Hs) as (b & -> & Hb & Hw & <-). cbn [out_bind]. rewrite E1, E2.
  apply fill_loop; [lia|lia| | |exact Hb|exact Hw].
  - intros i j x X Hi Hj _ _. rewrite (cl_get_holds n m c A i j Hc Hi Hj). reflexivity.
  - intros i j Hi Hj. apply Hv; assumption.
Qed.

Theorem classic_multiply_holds a b n1 m1 n2 A B r : classic_holds a n1 m1 A -> classic_holds b n2 n1 B -> n2 * m1 < W -> no_overflow A B n1 n2 m1 ->
  exists c, classic_multiply a b r = Done c /\ classic_holds c n2 m1 (product A B n1).
Proof.
  intros Ha Hb Hnm Ho. pose proof Ha as (A1 & A2 & L1 & L2 & _). pose proof Hb as (B1 & B2 & L3 & _). unfold classic_multiply. rewrite A1, A2, B1, B2, Z.eqb_refl. cbn [must out_bind].
  eapply cl_fill; [apply cl_random; assumption| |].
  - intros i j c Hi Hj. rewrite (dot_product _ A B n1 i j); [reflexivity|lia| |intros k Hk; apply Ho; assumption].
    intros k t Hk. rewrite (cl_get_holds n1 m1 a A k j Ha Hk Hj), (cl_get_holds n2 n1 b B i k Hb Hi Hk). reflexivity.
  - intros i j Hi Hj. apply (product_int A B n1 n2 m1); try assumption. lia.
Qed.

Theorem round_trip c s n m A r : classic_holds c n m A -> int_matrix s n m -> out_bind (from_classic c s) (fun b => to_classic b r) = Done c.
Proof.
  intros Hc Hs. destruct (from_classic_holds c s n m n m A Hc Hs) as (b & -> & _ & _ & Hb); [lia|lia|]. cbn [out_bind].
  destruct (to_classic_holds b n m _ r Hb) as (c' & -> & Hc'); [apply Hc|]. f_equal. apply (cl_unique n m c c' A Hc). revert Hc'. apply cl_same. intros i j Hi Hj.
  replace ((i <? n) && (j <? m)) with true by lia. reflexivity.
Qed.

(** ** The program *)

Lemma digits_product A B l : (forall i j, 0 <= A i j <= 9) -> (forall i j, 0 <= B i j <= 9) -> 0 <= l -> forall i j, 0 <= product A B l i j <= 81 * l.
Proof.
  intros HA HB Hl i j. unfold product. pattern l. apply natlike_ind; [vm_compute; split; discriminate| |exact Hl]. intros k Hk IH. rewrite <- Z.add_1_r, sum_next by exact Hk.
  pose proof (HA k j). pose proof (HB i k). nia.
Qed.

Theorem demo_true size s r1 r2 r3 r4 : int_matrix s size size -> 81 * size < 2 ^ 31 -> (forall i, 0 <= r1 i) -> (forall i, 0 <= r2 i) ->
  matrix_demo size s r1 r2 r3 r4 = Done true.
Proof.
  intros Hs Hsz Hr1 Hr2. destruct (matrix_lens _ _ _ Hs) as [Hn _]. assert (Hnm : size * size < W) by (rewrite W_eq; nia).
  pose proof (cl_random size size r1 Hn Hn Hnm) as H1. pose proof (cl_random size size r2 Hn Hn Hnm) as H2. unfold matrix_demo.
  set (A := fun i j => Z.rem (r1 (j * size + i)) 10) in *. set (B := fun i j => Z.rem (r2 (j * size + i)) 10) in *.
  assert (HA : forall i j, 0 <= A i j <= 9) by (intros i j; unfold A; pose proof (Z.rem_bound_pos (r1 (j * size + i)) 10 (Hr1 _)); lia).
  assert (HB : forall i j, 0 <= B i j <= 9) by (intros i j; unfold B; pose proof (Z.rem_bound_pos (r2 (j * size + i)) 10 (Hr2 _)); lia).
  assert (Ho : no_overflow A B size size size).
  { intros i j k Hi Hj Hk. pose proof (HA k j). pose proof (HB i k). pose proof (digits_product A B (k + 1) HA HB ltac:(lia) i j). unfold is_int. split; nia. }
  rewrite (cl_print_done _ _ _ _ H1), (cl_print_done _ _ _ _ H2). cbn [out_bind].
  destruct (from_classic_holds _ s _ _ size size A H1 Hs) as (b1 & -> & _ & W1 & B1); [lia|lia|]. destruct (from_classic_holds _ s _ _ size size B H2 Hs) as (b2 & -> & _ & W2 & B2); [lia|lia|]. cbn [out_bind].
  destruct (classic_multiply_holds _ _ _ _ _ A B r3 H1 H2 Hnm Ho) as (c & -> & Hc). cbn [out_bind]. rewrite (cl_print_done _ _ _ _ Hc). cbn [out_bind].
  apply (holds_same _ _ _ _ A) in B1; [|intros i j Hi Hj; replace ((i <? size) && (j <? size)) with true by lia; reflexivity].
  apply (holds_same _ _ _ _ B) in B2; [|intros i j Hi Hj; replace ((i <? size) && (j <? size)) with true by lia; reflexivity].
  destruct (multiply_holds b1 b2 s size size size size size A B B1 B2 W1 W2 Hs) as (b & -> & _ & _ & Hb); [lia|lia|exact Ho|]. cbn [out_bind].
  destruct (to_classic_holds b size size _ r4 Hb Hnm) as (c' & -> & Hc'). cbn [out_bind].
  apply (cl_same _ _ _ _ (product A B size)) in Hc'; [|intros i j Hi Hj; replace ((i <? size) && (j <? size)) with true by lia; reflexivity].
  rewrite (cl_print_done _ _ _ _ Hc'). cbn [out_bind]. rewrite (cl_unique _ _ c c' _ Hc Hc'). apply (cl_equal _ _ _ _ Hc).
Qed.

Lemma layout_rows size : 0 <= size -> 4 * size * size < W -> int_matrix (matrix_rows size) size size.
Proof.
  intros H0 H1. assert (Hs : 0 <= size < W) by (rewrite W_eq in *; nia). split; [|split; [|split; [reflexivity|split]]].
  - split; [reflexivity|]. split.
    + intros q. unfold has_dim. change (signature (matrix_rows size)) with (Some (SFun dm ADyn (SFun dn ADyn (SScalar int_t)))). rewrite accept_sdims. cbn. tauto.
    + intros q k [E|[E|[]]]; injection E as <- <-; exists (Dyn size); (split; [reflexivity|]); cbn [vz]; rewrite u64_small by exact Hs; reflexivity.
  - split; [reflexivity|]. split; [cbn; tauto|]. split; [intros a; cbn; tauto|]. cbn -[W Z.mul u64]. rewrite u64_small by exact Hs. lia.
  - intros E; discriminate E.
  - intros i j. exists int_t. eexists. split; [reflexivity|]. split; [reflexivity|]. reflexivity.
Qed.
Lemma layout_columns size : 0 <= size -> 4 * size * size < W -> int_matrix (matrix_columns size) size size.
Proof.
  intros H0 H1. assert (Hs : 0 <= size < W) by (rewrite W_eq in *; nia). split; [|split; [|split; [reflexivity|split]]].
  - split; [reflexivity|]. split.
    + intros q. unfold has_dim. change (signature (matrix_columns size)) with (Some (SFun dn ADyn (SFun dm ADyn (SScalar int_t)))). rewrite accept_sdims. cbn. tauto.
    + intros q k [E|[E|[]]]; injection E as <- <-; exists (Dyn size); (split; [reflexivity|]); cbn [vz]; rewrite u64_small by exact Hs; reflexivity.
  - split; [reflexivity|]. split; [cbn; tauto|]. split; [intros a; cbn; tauto|]. cbn -[W Z.mul u64]. rewrite u64_small by exact Hs. lia.
  - intros E; discriminate E.
  - intros i j. exists int_t. eexists. split; [reflexivity|]. split; [reflexivity|]. reflexivity.
Qed.

Theorem main_true rows arg r1 r2 r3 r4 : 1 <= arg -> 81 * arg < 2 ^ 31 -> (forall i, 0 <= r1 i) -> (forall i, 0 <= r2 i) ->
  matrix_main rows arg r1 r2 r3 r4 = Done (Some true).
Proof.
  intros H1 H2 Hr1 Hr2. unfold matrix_main. rewrite u64_small by (rewrite W_eq; lia). destruct (Z.ltb_spec arg 1); [lia|].
  rewrite demo_true; try assumption; [reflexivity|]. assert (4 * arg * arg < W) by (rewrite W_eq; nia). destruct rows; [apply layout_rows|apply layout_columns]; lia.
Qed.

Lemma for_first {A} lo hi (f : Z -> A -> outcome A) a a' : lo < hi -> f lo a = Done a' -> for_range lo hi f a = for_range (lo + 1) hi f a'.
Proof. intros H E. unfold for_range. replace (Z.to_nat (hi - lo)) with (S (Z.to_nat (hi - (lo + 1)))) by lia. cbn [repeat_from]. rewrite E. reflexivity. Qed.
Lemma for_undefined {A} lo hi (f : Z -> A -> outcome A) a : lo < hi -> f lo a = Undefined -> for_range lo hi f a = Undefined.
Proof. intros H E. unfold for_range. replace (Z.to_nat (hi - lo)) with (S (Z.to_nat (hi - (lo + 1)))) by lia. cbn [repeat_from]. rewrite E. reflexivity. Qed.

Theorem main_negative rows arg r1 r2 r3 r4 : - 2 ^ 31 <= arg < 0 -> matrix_main rows arg r1 r2 r3 r4 = Undefined.
Proof.
  intros H. unfold matrix_main. assert (E : u64 arg = W + arg).
  { unfold u64. rewrite <- (Z.mod_add arg 1), Z.mul_1_l, Z.add_comm by (rewrite W_eq; lia). apply Z.mod_small. rewrite W_eq. lia. }
  rewrite E. destruct (Z.ltb_spec (W + arg) 1) as [X|X]; [rewrite W_eq in X; lia|]. unfold matrix_demo.
  set (c := random_classic (W + arg) (W + arg) r1). assert (Hl : Z.of_nat (List.length (cl_ary c)) = arg * arg).
  { cbn [c cl_ary random_classic]. rewrite map_length, zseq_length. assert (u64 ((W + arg) * (W + arg)) = arg * arg); [|pose proof (u64_range ((W + arg) * (W + arg))); lia].
    unfold u64. replace ((W + arg) * (W + arg)) with (arg * arg + (W + 2 * arg) * W) by lia. rewrite Z.mod_add by (rewrite W_eq; lia). apply Z.mod_small. rewrite W_eq. nia. }
  assert (Hn : cl_n c = W + arg) by reflexivity. assert (Hm : cl_m c = W + arg) by reflexivity. clearbody c.
  assert (P : cl_print c = Undefined).
  { unfold cl_print. rewrite Hn, Hm. apply for_undefined; [exact (Z.lt_le_trans 0 1 _ ltac:(lia) X)|]. erewrite for_first.
    - apply for_undefined; [rewrite W_eq; lia|]. unfold cl_get, cl_pos. rewrite Hn. rewrite u64_small by (rewrite W_eq; lia).
      rewrite nthz_nth_error. destruct (0 <=? 0 + (0 + 1) * (W + arg)); [|reflexivity]. rewrite (proj2 (nth_error_None _ _)); [reflexivity|]. rewrite W_eq in *. nia.
    - rewrite W_eq. lia.
    - unfold cl_get, cl_pos. rewrite Hn. rewrite Z.mul_0_l, Z.add_0_l, u64_small by (rewrite W_eq; lia). destruct (nthz_range_Some (cl_ary c) 0) as (v & ->); [nia|]. reflexivity. }
  rewrite P. reflexivity.
Qed.
