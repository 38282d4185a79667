(** * Facts about the matrix example *)

From Verif Require Import KernelThms BagFacts StateFacts.
From Verif Require Import SpecMatrix.

(** ** Loops *)

Lemma repeat_inv {A} (P : Z -> A -> Prop) (f : Z -> A -> outcome A) k : forall i a, P i a ->
  (forall j x, i <= j < i + Z.of_nat k -> P j x -> exists x', f j x = Done x' /\ P (j + 1) x') ->
  exists a', repeat_from k i f a = Done a' /\ P (i + Z.of_nat k) a'.
Proof.
  induction k as [|k IH]; intros i a H0 Hs; [exists a; cbn [repeat_from]; rewrite Z.add_0_r; auto|]. cbn [repeat_from].
  destruct (Hs i a ltac:(lia) H0) as (x' & -> & H1). cbn [out_bind]. destruct (IH (i + 1) x' H1) as (a' & -> & H2).
  - intros j x Hj. apply Hs. lia.
  - exists a'. split; [reflexivity|]. replace (i + Z.of_nat (S k)) with (i + 1 + Z.of_nat k) by lia. exact H2.
Qed.

Lemma for_inv {A} (P : Z -> A -> Prop) (f : Z -> A -> outcome A) lo hi a : lo <= hi -> P lo a ->
  (forall i x, lo <= i < hi -> P i x -> exists x', f i x = Done x' /\ P (i + 1) x') ->
  exists a', for_range lo hi f a = Done a' /\ P hi a'.
Proof.
  intros Hl H0 Hs. unfold for_range. destruct (repeat_inv P f (Z.to_nat (hi - lo)) lo a H0) as (a' & E & H).
  - intros j x Hj. apply Hs. lia.
  - exists a'. split; [exact E|]. replace hi with (lo + Z.of_nat (Z.to_nat (hi - lo))) by lia. exact H.
Qed.

(** Two nested loops. *)
Lemma for_inv2 {A} (P : Z -> Z -> A -> Prop) (f : Z -> Z -> A -> outcome A) n m a : 0 <= n -> 0 <= m -> P 0 0 a ->
  (forall i x, 0 <= i < n -> P i m x -> P (i + 1) 0 x) ->
  (forall i j x, 0 <= i < n -> 0 <= j < m -> P i j x -> exists x', f i j x = Done x' /\ P i (j + 1) x') ->
  exists a', for_range 0 n (fun i => for_range 0 m (f i)) a = Done a' /\ P n 0 a'.
Proof.
  intros Hn Hm H0 H1 H2. apply (for_inv (fun i x => P i 0 x)); [exact Hn|exact H0|]. intros i x Hi Hx.
  destruct (for_inv (P i) (f i) 0 m x Hm Hx) as (x' & E & Hx'); [intros j y Hj; apply H2; assumption|]. exists x'. split; [exact E|]. apply H1; assumption.
Qed.

(** ** Integers *)

Lemma int_ok_spec z : int_ok z = true <-> is_int z.
Proof. unfold int_ok, is_int. lia. Qed.
Lemma int_mul_ok a b : is_int (a * b) -> int_mul a b = Done (a * b).
Proof. intros H. unfold int_mul. rewrite (proj2 (int_ok_spec _) H). reflexivity. Qed.
Lemma int_add_ok a b : is_int (a + b) -> int_add a b = Done (a + b).
Proof. intros H. unfold int_add. rewrite (proj2 (int_ok_spec _) H). reflexivity. Qed.
Lemma le_bytes_len k : forall z, List.length (le_bytes k z) = k.
Proof. induction k as [|k IH]; intros z; [reflexivity|]. cbn [le_bytes List.length]. rewrite IH. reflexivity. Qed.
Lemma int_back z : is_int z -> int_value (int_bytes z) = z.
Proof.
  intros H. unfold int_value, int_bytes. rewrite le_value_bytes. unfold is_int in H. change (256 ^ Z.of_nat 4) with (2 ^ 32).
  assert (E : z mod 2 ^ 32 = if z <? 0 then z + 2 ^ 32 else z).
  { destruct (Z.ltb_spec z 0).
    - rewrite <- (Z.mod_add z 1) by lia. rewrite Z.mul_1_l. apply Z.mod_small. lia.
    - apply Z.mod_small. lia. }
  rewrite E. destruct (Z.ltb_spec z 0).
  - destruct (Z.ltb_spec (z + 2 ^ 32) (2 ^ 31)); lia.
  - destruct (Z.ltb_spec z (2 ^ 31)); lia.
Qed.

(** ** Elements *)

Definition set_at (A : Z -> Z -> Z) (i j z : Z) : Z -> Z -> Z := fun p q => if (p =? i) && (q =? j) then z else A p q.

Section Bags.
  Variables (n m : Z).

  Lemma matrix_good b : int_matrix (bg_struct b) n m -> enough_data b -> good_bag b [(dn, n); (dm, m)].
  Proof. intros (H1 & H2 & _) H. split; [exact H1|]. split; [exact H2|exact H]. Qed.

  Lemma matrix_lens s : int_matrix s n m -> 0 <= n < W /\ 0 <= m < W.
  Proof.
    intros ((_ & _ & H) & _). destruct (H dn n) as (l & _ & E); [left; reflexivity|]. destruct (H dm m) as (l' & _ & E'); [right; left; reflexivity|].
    split; eapply vz_range; eassumption.
  Qed.

  Lemma len_n b : int_matrix (bg_struct b) n m -> len_of b dn = Done n.
  Proof. intros ((_ & _ & H) & _). destruct (H dn n) as (l & E1 & E2); [left; reflexivity|]. unfold len_of. rewrite E1, E2. reflexivity. Qed.
  Lemma len_m b : int_matrix (bg_struct b) n m -> len_of b dm = Done m.
  Proof. intros ((_ & _ & H) & _). destruct (H dm m) as (l & E1 & E2); [right; left; reflexivity|]. unfold len_of. rewrite E1, E2. reflexivity. Qed.

  Lemma named_nm s i j : int_matrix s n m -> 0 <= i < n -> 0 <= j < m -> named s (at_ij dn dm i j) (at_nm i j).
  Proof.
    intros H Hi Hj. destruct (matrix_lens s H) as [Hn Hm]. split; [intros d; reflexivity|]. intros d Hd. destruct H as ((_ & H & _) & _). apply H in Hd.
    destruct Hd as [<-|[<-|[]]]; [exists (Dyn i)|exists (Dyn j)]; (split; [reflexivity|]); cbn [vz]; rewrite u64_small by lia; reflexivity.
  Qed.
  Lemma box_nm i j : 0 <= i < n -> 0 <= j < m -> in_box [(dn, n); (dm, m)] (at_ij dn dm i j).
  Proof. intros Hi Hj q k [E|[E|[]]]; injection E as <- <-; assumption. Qed.

  Lemma ref_int b i j : int_matrix (bg_struct b) n m -> enough_data b -> 0 <= i < n -> 0 <= j < m ->
    exists o, bag_ref b (at_nm i j) = Done (o, 4) /\ 0 <= o /\ o + 4 <= Z.of_nat (List.length (bg_data b)).
  Proof.
    intros Hm He Hi Hj. pose proof (ref_named b _ (matrix_good b Hm He) _ _ (box_nm i j Hi Hj) (named_nm _ i j Hm Hi Hj)) as H.
    destruct Hm as (_ & _ & _ & _ & Hc). destruct (Hc i j) as (c & o & E1 & E2 & E3). destruct H as [H|(c' & _ & E & H0 & _ & H2)].
    - exfalso. unfold bag_ref in H. rewrite E1, E3 in H. destruct (vz o); [|discriminate]. destruct (_ <=? _); discriminate.
    - assert (X : ct_size c' = 4). { unfold bag_ref in E. rewrite E1, E3 in E. destruct (vz o); [|discriminate]. destruct (_ <=? _); [|discriminate]. injection E as _ E. congruence. }
      rewrite X in *. eexists. split; [exact E|]. split; assumption.
  Qed.

  Lemma put_holds b A i j z : holds b n m A -> writable b = true -> 0 <= i < n -> 0 <= j < m -> is_int z ->
    exists b', put_int b i j z = Done b' /\ holds b' n m (set_at A i j z) /\ writable b' = true /\ bg_struct b' = bg_struct b.
  Proof.
    intros (Hm & He & Hv) Hw Hi Hj Hz. destruct (ref_int b i j Hm He Hi Hj) as (o & Er & Ho & Hl).
    assert (E : put_int b i j z = Done {| bg_struct := bg_struct b; bg_policy := bg_policy b; bg_data := patch (bg_data b) o (int_bytes z) |}).
    { unfold put_int, bag_write, writable in *. rewrite Er. cbn [out_bind fst snd]. unfold int_bytes at 1 3 5. rewrite !le_bytes_len. destruct (bg_policy b); [reflexivity|reflexivity|discriminate]. }
    eexists. split; [exact E|]. pose proof (matrix_good b Hm He) as Hg. unfold put_int in E.
    destruct (write_effect b _ Hg _ _ _ _ (box_nm i j Hi Hj) (named_nm _ i j Hm Hi Hj) E) as (S1 & S2 & S3 & S4).
    pose proof (write_good b _ Hg _ _ _ E S2) as Hg'. split; [|split; [exact Hw|reflexivity]]. split; [exact Hm|]. split; [exact (proj2 (proj2 Hg'))|].
    intros p q Hp Hq. unfold set_at, get_int. destruct (Hv p q Hp Hq) as [V1 V2]. destruct ((p =? i) && (q =? j)) eqn:Epq.
    - assert (p = i) by lia. assert (q = j) by lia. subst p q. split; [exact Hz|]. unfold get_int in V2. destruct (bag_read b (at_nm i j)) as [| |v0] eqn:E0; try discriminate.
      rewrite (S3 _ v0 (named_nm _ i j Hm Hi Hj) E0). cbn [out_bind]. unfold int_bytes at 1. rewrite le_bytes_len. cbn. f_equal. apply int_back, Hz.
    - split; [exact V1|]. rewrite (S4 (proj1 (proj2 (proj2 Hm))) _ _ (box_nm p q Hp Hq) (named_nm _ p q Hm Hp Hq)); [exact V2|].
      pose proof (proj1 (proj2 (proj1 Hm))) as Hd. destruct (Z.eq_dec p i) as [->|Hne].
      + exists dm. split; [apply Hd; right; left; reflexivity|]. cbn. lia.
      + exists dn. split; [apply Hd; left; reflexivity|]. cbn. lia.
  Qed.

  Lemma make_holds s : int_matrix s n m -> exists b, make_bag s = Done b /\ holds b n m (fun _ _ => 0) /\ writable b = true /\ bg_struct b = s.
  Proof.
    intros Hm. pose proof Hm as (Hc & (Hw & Hlk & Hgd & Hsz) & _ & Hs & _). destruct (get_size s []) as [v|] eqn:Ev; [|congruence].
    assert (Hsig : signature s <> None) by (destruct (cube_sig _ _ Hc) as (sg & -> & _); discriminate).
    pose proof Ev as Ev'. unfold get_size in Ev'. pose proof (size_spec _ Hw Hsig [] nolens (asg_of []) v Hlk (agree_empty _) ltac:(intros d w X; discriminate) Ev') as Hv.
    unfold make_bag. rewrite Ev, Hv. eexists. split; [reflexivity|]. split; [|split; reflexivity].
    set (b := {| bg_struct := s; bg_policy := Owned; bg_data := repeat 0 (Z.to_nat (u64 (isize s nolens))) |}).
    assert (He : enough_data b). { exists v, (u64 (isize s nolens)). split; [exact Ev|]. split; [exact Hv|]. cbn [b bg_data]. rewrite repeat_length. pose proof (u64_range (isize s nolens)). lia. }
    split; [exact Hm|]. split; [exact He|]. intros i j Hi Hj. split; [unfold is_int; lia|]. destruct (ref_int b i j Hm He Hi Hj) as (o & Er & Ho & Hl).
    unfold get_int, bag_read. rewrite Er. cbn [out_map out_bind fst snd]. fold (window (bg_data b) o 4).
    assert (X : window (bg_data b) o 4 = repeat 0 4).
    { cbn [b bg_data] in Hl |- *. rewrite repeat_length in Hl. set (k := Z.to_nat (u64 (isize s nolens))) in *. unfold window. replace k with (Z.to_nat o + (4 + (k - Z.to_nat o - 4)))%nat by lia.
      rewrite repeat_app, skipn_app, repeat_length, Nat.sub_diag, skipn_all2 by (rewrite repeat_length; lia). reflexivity. }
    rewrite X. reflexivity.
  Qed.

  Lemma holds_same b A B : (forall i j, 0 <= i < n -> 0 <= j < m -> B i j = A i j) -> holds b n m A -> holds b n m B.
  Proof. intros H (H1 & H2 & H3). split; [exact H1|]. split; [exact H2|]. intros i j Hi Hj. rewrite (H i j Hi Hj). auto. Qed.
End Bags.
