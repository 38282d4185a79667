(** * What a loop over bags computes: the value of each element *)

From Coq Require Import Permutation.
From Verif Require Export KernelTrav.
From Verif Require Import SpecKernel.

(** ** Folds *)

Lemma fold_perm {A B} (g : A -> B -> A) l l' : any_order g -> Permutation l l' -> forall v, fold_left g l v = fold_left g l' v.
Proof.
  intros Hg. induction 1 as [|x l l' H IH|x y l|l l' l2 H1 IH1 H2 IH2]; intros v; cbn [fold_left]; [reflexivity|apply IH|rewrite Hg; reflexivity|]. rewrite IH1. apply IH2.
Qed.

Lemma filter_perm {A} (g : A -> bool) l l' : Permutation l l' -> Permutation (filter g l) (filter g l').
Proof.
  induction 1 as [|x l l' H IH|x y l|l l' l2 H1 IH1 H2 IH2]; cbn [filter]; [constructor| | |etransitivity; eauto].
  - destruct (g x); [constructor|]; exact IH.
  - destruct (g x), (g y); try apply Permutation_refl. apply perm_swap.
Qed.

Lemma fold_mapped {A B C} (g : A -> B -> A) (k : C -> B) (P : B -> bool) (e : C -> bool) (h : A -> C -> A) l :
  (forall c, In c l -> e c = P (k c)) -> (forall v c, In c l -> h v c = g v (k c)) ->
  forall v : A, fold_left h (filter e l) v = fold_left g (filter P (map k l)) v.
Proof.
  intros H1 H2. induction l as [|c l IH]; intros v; [reflexivity|]. cbn [filter map]. rewrite (H1 c (or_introl eq_refl)).
  assert (IH' : forall v, fold_left h (filter e l) v = fold_left g (filter P (map k l)) v) by (apply IH; intros; [apply H1|apply H2]; right; assumption).
  destruct (P (k c)); [|apply IH']. cbn [fold_left]. rewrite H2 by (left; reflexivity). apply IH'.
Qed.

Lemma fold_same {A B} (g h : A -> B -> A) l : (forall v x, In x l -> g v x = h v x) -> forall v, fold_left g l v = fold_left h l v.
Proof. induction l as [|x l IH]; intros H v; [reflexivity|]. cbn [fold_left]. rewrite H by (left; reflexivity). apply IH. intros w y Hy. apply H. right. exact Hy. Qed.

Lemma forallb_same {A} (g h : A -> bool) l : (forall x, In x l -> g x = h x) -> forallb g l = forallb h l.
Proof. induction l as [|x l IH]; intros H; [reflexivity|]. cbn [forallb]. rewrite H by (left; reflexivity). f_equal. apply IH. intros y Hy. apply H. right. exact Hy. Qed.

(** ** What is read *)

Lemma loop_reads f rd sts : forall out out', loop_with f rd out sts = Done out' -> forall st, In st sts -> exists xs, rd st = Done xs.
Proof.
  induction sts as [|st0 sts IH]; intros out out' E st Hin; [destruct Hin|]. cbn [loop_with] in E. destruct (update_with f rd out st0) as [| |o1] eqn:Eu; try discriminate. cbn [out_bind] in E.
  destruct Hin as [->|Hin]; [|eauto]. unfold update_with in Eu. destruct (bag_read out st) as [| |v]; try discriminate. cbn [out_bind] in Eu. destruct (rd st) as [| |xs]; try discriminate. eauto.
Qed.

Lemma reads_inv ins st xs : reads ins st = Done xs -> Forall2 (fun b v => bag_read b st = Done v) ins xs.
Proof.
  revert xs. induction ins as [|b ins IH]; intros xs E; cbn [reads] in E; [injection E as <-; constructor|].
  destruct (bag_read b st) as [| |v] eqn:Eb; try discriminate. cbn [out_bind] in E. destruct (reads ins st) as [| |ys]; try discriminate. cbn [out_map] in E. injection E as <-.
  constructor; [exact Eb|]. apply IH. reflexivity.
Qed.

Lemma named_same s x y st : (forall d, has_dim s d -> y d = x d) -> named s x st -> named s y st.
Proof. intros H [H1 H2]. split; [exact H1|]. intros d Hd. rewrite H by exact Hd. apply H2, Hd. Qed.

Lemma have_same ins lens x y vs : good_bags ins lens -> (forall d, In d (map fst lens) -> y d = x d) -> have_values ins x vs -> have_values ins y vs.
Proof.
  intros Hg He H. induction H as [|b v ins vs (st & Hn & Er) F IH]; constructor.
  - exists st. split; [|exact Er]. eapply named_same; [|exact Hn]. intros d Hd. apply He. destruct (Hg b (or_introl eq_refl)) as (l & ((_ & Hds & _) & _) & Hl).
    apply Hds in Hd. destruct (fst_in _ _ Hd) as [n Hn']. destruct (Hl d n Hn') as (m & Hm & _). eapply in_fst; eauto.
  - apply IH. intros b0 Hb. apply Hg. right. exact Hb.
Qed.

Lemma within_box lens l x : within_lengths lens l -> in_box lens x -> in_box l x.
Proof. intros Hl Hx q n Hq. destruct (Hl q n Hq) as (m & Hm & Hle). specialize (Hx q m Hm). lia. Qed.

Lemma have_once ins lens x vs vs' : good_bags ins lens -> in_box lens x -> have_values ins x vs -> have_values ins x vs' -> vs' = vs.
Proof.
  intros Hg Hx H. revert vs'. induction H as [|b v ins vs Hv F IH]; intros vs' H'; inversion H' as [|? v' ? ws Hv' F']; subst; [reflexivity|].
  destruct (Hg b (or_introl eq_refl)) as (l & Hb & Hl). rewrite (value_once b l Hb x v v' (within_box _ _ _ Hl Hx) Hv Hv'). f_equal.
  apply IH; [|exact F']. intros b0 Hb0. apply Hg. right. exact Hb0.
Qed.

Lemma loops_documented ss p lens : loops rearranges ss p lens -> loops documented ss p lens.
Proof. intros (H1 & H2 & H3 & H4 & H5). split; [exact H1|]. split; [exact H2|]. split; [exact H3|]. split; [exact (over_mono _ _ _ _ _ rearranges_documented H4)|exact H5]. Qed.

Section Result.
  Variables (f : bytes -> list bytes -> bytes) (ins : list bag) (out out' : bag) (ss : list struct) (p : proto) (lens lo : list (dim * Z)) (calls sched : list state).
  Let t := order (traverser ss) p.
  Hypothesis Hd : loops documented ss p lens.
  Hypothesis Hins : good_bags ins lens.
  Hypothesis Hout : good_bag out lo.
  Hypothesis Hlo : within_lengths lens lo.
  Hypothesis E : for_each t [] = Done calls.
  Hypothesis Hs : Permutation calls sched.

  Let Hfacts s l r (Hc : cube s l) (Hl : within_lengths lens l) (Hr : In r sched) : named s (asg_of r) r /\ in_box l (asg_of r).
  Proof. destruct Hd as (H1 & H2 & H3 & H4 & H5). exact (call_named ss p lens calls H1 H2 H3 H4 E (fun r => H5 calls r E) s l r Hc Hl (Permutation_in _ (Permutation_sym Hs) Hr)). Qed.

  Theorem kernel_defined : loop f ins out sched <> Undefined.
  Proof.
    apply (loop_defined f (reads ins) lo sched out Hout).
    - intros st Hst. destruct Hout as (Hc & _). apply (Hfacts _ _ _ Hc Hlo Hst).
    - intros st Hst. apply reads_defined. intros b Hb. destruct (Hins b Hb) as (l & Hg & Hl). exists l. split; [exact Hg|]. destruct Hg as (Hc & _). apply (Hfacts _ _ _ Hc Hl Hst).
  Qed.

  Hypothesis Hnb : nobcast (bg_struct out) = true.
  Hypothesis El : loop f ins out sched = Done out'.
  Variables (vals : asg -> list bytes) (x : asg) (v : bytes).
  Hypothesis Hvals : forall y, in_box lens y -> have_values ins y (vals y).
  Hypothesis Hx : in_box lo x.
  Hypothesis Hv : has_value out x v.

  Lemma call_values r : In r sched -> in_box lens (asg_of r) /\ values (reads ins) r = vals (asg_of r).
  Proof.
    intros Hr. destruct Hd as (H1 & H2 & H3 & H4 & H5). pose proof (call_facts ss p lens calls H1 H2 H3 H4 E (fun r => H5 calls r E) r (Permutation_in _ (Permutation_sym Hs) Hr)) as (_ & _ & Hb). split; [exact Hb|].
    destruct (loop_reads f (reads ins) sched out out' El r Hr) as (xs & Exs). unfold values. rewrite Exs. apply (have_once ins lens (asg_of r) _ _ Hins Hb (Hvals _ Hb)).
    pose proof (reads_inv ins r xs Exs) as F. pose proof Hins as Hi. clear - F Hi Hr Hfacts. induction F as [|b w ins xs Hw F IH]; constructor.
    - exists r. split; [|exact Hw]. destruct (Hi b (or_introl eq_refl)) as (l & (Hc & _) & Hl). apply (Hfacts _ _ _ Hc Hl Hr).
    - apply IH. intros b0 Hb0. apply Hi. right. exact Hb0.
  Qed.

  Theorem kernel_calls : bg_struct out' = bg_struct out /\ good_bag out' lo /\
    has_value out' x (fold_left (fun v st => f v (vals (asg_of st))) (filter (fun st => agrees (map fst lo) x (asg_of st)) sched) v).
  Proof.
    destruct Hv as (st0 & Hn0 & E0).
    destruct (loop_calls f (reads ins) lo sched out out' x st0 v Hout Hnb) as (A & B & C); try assumption.
    - intros st Hst. destruct Hout as (Hc & _). apply (Hfacts _ _ _ Hc Hlo Hst).
    - split; [exact A|]. split; [exact B|]. exists st0. split; [rewrite A; exact Hn0|]. rewrite C. f_equal. apply fold_same. intros w st Hst.
      apply filter_In in Hst. destruct Hst as [Hst _]. rewrite (proj2 (call_values st Hst)). reflexivity.
  Qed.

  Lemma vals_same y z : in_box lens y -> (forall d, In d (map fst lens) -> z d = y d) -> vals z = vals y.
  Proof.
    intros Hy He. assert (Hz : in_box lens z) by (intros q n Hq; rewrite He by (eapply in_fst; eauto); apply (Hy q n Hq)).
    apply (have_once ins lens y _ _ Hins Hy (Hvals y Hy)). apply (have_same ins lens z y); [exact Hins| |exact (Hvals z Hz)]. intros d Hin. symmetry. apply He, Hin.
  Qed.

  Theorem kernel_result : any_order f -> over rearranges (Union ss) (top_struct t) nolens ->
    has_value out' x (fold_left (fun v is => f v (vals (idx lens is))) (filter (fun is => agrees (map fst lo) x (idx lens is)) (all_indices lens)) v).
  Proof.
    intros Hf Hre. destruct kernel_calls as (_ & _ & H). destruct Hd as (H1 & H2 & H3 & H4 & H5).
    pose proof (calls_box ss p lens calls H1 H2 H3 H4 E (fun r => H5 calls r E) Hre) as Hp.
    replace (fold_left (fun v is => f v (vals (idx lens is))) (filter (fun is => agrees (map fst lo) x (idx lens is)) (all_indices lens)) v)
      with (fold_left (fun v st => f v (vals (asg_of st))) (filter (fun st => agrees (map fst lo) x (asg_of st)) sched) v); [exact H|].
    rewrite (fold_mapped (fun v is => f v (vals (idx lens is))) (key lens) (fun is => agrees (map fst lo) x (idx lens is))).
    - apply fold_perm; [intros w a b; apply Hf|]. apply filter_perm. rewrite <- Hp. apply Permutation_map, Permutation_sym, Hs.
    - intros r Hr. unfold agrees. apply forallb_same. intros d Hin. unfold key. rewrite idx_of; [reflexivity|].
      destruct (fst_in _ _ Hin) as [n Hn]. destruct (Hlo d n Hn) as (m & Hm & _). eapply in_fst; eauto.
    - intros w r Hr. f_equal. unfold key. symmetry. apply vals_same; [apply (call_values r Hr)|]. intros d Hin. apply idx_of, Hin.
  Qed.
End Result.

(** ** Reductions *)

Lemma all_indices_app lo lr : all_indices (lo ++ lr) = flat_map (fun is => map (app is) (all_indices lr)) (all_indices lo).
Proof.
  induction lo as [|[d n] lo IH]; cbn [all_indices app flat_map]; [rewrite app_nil_r; symmetry; apply map_id|]. rewrite IH.
  induction (zseq n) as [|i l IHl]; [reflexivity|]. cbn [flat_map]. rewrite flat_map_app. f_equal; [|exact IHl].
  generalize (all_indices lo). clear. intros l. induction l as [|is l IH]; [reflexivity|]. cbn [flat_map map]. rewrite map_app, IH, map_map. reflexivity.
Qed.

Lemma idx_app lo lr is js q : List.length is = List.length lo -> idx (lo ++ lr) (is ++ js) q = if mem q (map fst lo) then idx lo is q else idx lr js q.
Proof.
  revert is. induction lo as [|[d n] lo IH]; intros [|i is] Hl; try discriminate; [reflexivity|]. cbn [app idx map fst mem existsb]. rewrite IH by (cbn in Hl; lia).
  unfold mem. cbn [existsb]. destruct (q =? d); reflexivity.
Qed.

Lemma filter_one {A} (P : A -> bool) l a : NoDup l -> In a l -> (forall b, In b l -> P b = true <-> b = a) -> filter P l = [a].
Proof.
  intros Hn Hin HP. induction l as [|b l IH]; [destruct Hin|]. inversion Hn as [|? ? Hb Hn']; subst. cbn [filter]. destruct Hin as [->|Hin].
  - rewrite (proj2 (HP a (or_introl eq_refl)) eq_refl). f_equal. assert (H : forall y, In y l -> P y = false).
    { intros y Hy. destruct (P y) eqn:Ep; [|reflexivity]. apply (HP y (or_intror Hy)) in Ep. subst y. contradiction. }
    clear - H. induction l as [|y l IH]; [reflexivity|]. cbn [filter]. rewrite (H y) by (left; reflexivity). apply IH. intros z Hz. apply H. right. exact Hz.
  - destruct (P b) eqn:Ep; [apply (HP b (or_introl eq_refl)) in Ep; subst b; contradiction|]. apply IH; auto. intros y Hy. apply HP. right. exact Hy.
Qed.

Lemma filter_flat {A B} (P : B -> bool) (Q : A -> bool) (g : A -> list B) l : (forall a b, In a l -> In b (g a) -> P b = Q a) ->
  filter P (flat_map g l) = flat_map g (filter Q l).
Proof.
  induction l as [|a l IH]; intros H; [reflexivity|]. cbn [flat_map filter]. rewrite filter_app, IH by (intros a0 b0 Ha; apply H; right; exact Ha).
  assert (Hh : filter P (g a) = if Q a then g a else []).
  { assert (Hb : forall b, In b (g a) -> P b = Q a) by (intros b; apply H; left; reflexivity). clear - Hb. induction (g a) as [|b m IHm]; [destruct (Q a); reflexivity|]. cbn [filter].
    rewrite (Hb b) by (left; reflexivity). rewrite IHm by (intros c Hc; apply Hb; right; exact Hc). destruct (Q a); reflexivity. }
  rewrite Hh. destruct (Q a); [reflexivity|exact eq_refl].
Qed.

Lemma reduce_filter lo lr x : NoDup (map fst (lo ++ lr)) -> in_box lo x ->
  filter (fun is => agrees (map fst lo) x (idx (lo ++ lr) is)) (all_indices (lo ++ lr)) = map (app (map x (map fst lo))) (all_indices lr).
Proof.
  intros Hn Hx. rewrite map_app in Hn. assert (Hno : NoDup (map fst lo)) by (clear - Hn; induction (map fst lo) as [|y m IH]; [constructor|]; inversion Hn as [|? ? H1 H2]; subst; constructor; [intros X; apply H1, in_or_app; left; exact X|apply IH, H2]).
  rewrite all_indices_app. rewrite (filter_flat _ (fun is => agrees (map fst lo) x (idx lo is))).
  - rewrite (filter_one _ _ (map x (map fst lo)) (box_NoDup lo) (box_in lo x Hx)); [cbn [flat_map]; apply app_nil_r|].
    intros is His. rewrite agrees_all. destruct (box_idx lo is Hno His) as [_ Ei]. split.
    + intros H. rewrite <- Ei. apply map_ext_in. exact H.
    + intros -> d Hd. apply idx_of, Hd.
  - intros is b His Hb. apply in_map_iff in Hb. destruct Hb as (js & <- & _). unfold agrees. apply forallb_same. intros d Hd.
    rewrite idx_app by (symmetry; eapply Forall2_len, box_In, His). rewrite (proj2 (mem_In _ _) Hd). reflexivity.
Qed.

Lemma over_all lr js q : In q (map fst lr) -> forall x, along lr js x q = idx lr js q.
Proof. intros Hq x. unfold along. rewrite (proj2 (mem_In _ _) Hq). reflexivity. Qed.

Lemma reduce_along f ins lo lr vals x v : NoDup (map fst (lo ++ lr)) -> good_bags ins (lo ++ lr) -> (forall y, in_box (lo ++ lr) y -> have_values ins y (vals y)) -> in_box lo x ->
  fold_left (fun v is => f v (vals (idx (lo ++ lr) is))) (map (app (map x (map fst lo))) (all_indices lr)) v =
  fold_left (fun (v : bytes) js => f v (vals (along lr js x))) (all_indices lr) v.
Proof.
  intros Hnd Hins Hvals Hx.
  assert (Hall : forall js, In js (all_indices lr) -> vals (idx (lo ++ lr) (map x (map fst lo) ++ js)) = vals (along lr js x)).
  { intros js Hjs.
    assert (Hb : In (map x (map fst lo) ++ js) (all_indices (lo ++ lr))) by (rewrite all_indices_app; apply in_flat_map; exists (map x (map fst lo)); split; [apply box_in, Hx|apply in_map, Hjs]).
    destruct (box_idx _ _ Hnd Hb) as [Hbx _]. symmetry. apply (vals_same ins (lo ++ lr) Hins vals Hvals _ _ Hbx).
    intros d Hin. rewrite idx_app by (rewrite !map_length; reflexivity). rewrite map_app in Hin, Hnd. unfold along. destruct (mem d (map fst lo)) eqn:Em.
    - apply mem_In in Em. rewrite idx_of by exact Em. destruct (mem d (map fst lr)) eqn:Em'; [|reflexivity]. apply mem_In in Em'. exfalso.
    clear - Hnd Em Em'. induction (map fst lo) as [|y m IH]; [destruct Em|]. inversion Hnd as [|? ? H1 H2]; subst. destruct Em as [->|Em]; [apply H1, in_or_app; right; exact Em'|auto].
    - destruct (mem d (map fst lr)) eqn:Em'; [reflexivity|]. exfalso. apply in_app_or in Hin. destruct Hin as [Hin|Hin]; apply mem_In in Hin; congruence. }
  revert Hall. generalize (all_indices lr). intros l. revert v. clear. induction l as [|js l IH]; intros v Hall; [reflexivity|]. cbn [map fold_left].
  rewrite Hall by (left; reflexivity). apply IH. intros y Hy. apply Hall. right. exact Hy.
Qed.

Section Reduce.
  Variables (f : bytes -> list bytes -> bytes) (ins : list bag) (out out' : bag) (ss : list struct) (p : proto) (lo lr : list (dim * Z)) (calls sched : list state).
  Hypothesis Hd : loops rearranges ss p (lo ++ lr).
  Hypothesis Hins : good_bags ins (lo ++ lr).
  Hypothesis Hout : good_bag out lo.
  Hypothesis Hnb : nobcast (bg_struct out) = true.
  Hypothesis Hf : any_order f.
  Hypothesis E : for_each (order (traverser ss) p) [] = Done calls.
  Hypothesis Hs : Permutation calls sched.
  Hypothesis El : loop f ins out sched = Done out'.
  Variables (vals : asg -> list bytes) (x : asg) (v : bytes).
  Hypothesis Hvals : forall y, in_box (lo ++ lr) y -> have_values ins y (vals y).
  Hypothesis Hx : in_box lo x.
  Hypothesis Hv : has_value out x v.

  Theorem kernel_reduce : has_value out' x (fold_left (fun v js => f v (vals (along lr js x))) (all_indices lr) v).
  Proof.
    assert (Hlo : within_lengths (lo ++ lr) lo) by (intros q n Hq; exists n; split; [apply in_or_app; left; exact Hq|lia]).
    pose proof (kernel_result f ins out out' ss p (lo ++ lr) lo calls sched (loops_documented _ _ _ Hd) Hins Hout Hlo E Hs Hnb El vals x v Hvals Hx Hv Hf (proj1 (proj2 (proj2 (proj2 Hd))))) as H.
    pose proof (proj1 (proj1 Hd)) as Hnd. rewrite reduce_filter in H by assumption.
    rewrite (reduce_along f ins lo lr vals x v) in H; assumption.
  Qed.
End Reduce.

(** ** Unsigned integers *)

Lemma le_bytes_mod w : forall z z', z mod 256 ^ Z.of_nat w = z' mod 256 ^ Z.of_nat w -> le_bytes w z = le_bytes w z'.
Proof.
  induction w as [|w IH]; intros z z' H; [reflexivity|]. rewrite Nat2Z.inj_succ, Z.pow_succ_r in H by lia. cbn [le_bytes].
  assert (Hp : 0 < 256 ^ Z.of_nat w) by (apply Z.pow_pos_nonneg; lia).
  assert (H1 : forall y, (y mod (256 * 256 ^ Z.of_nat w)) mod 256 = y mod 256).
  { intros y. rewrite Z.rem_mul_r by lia. rewrite Z.mul_comm, Z_mod_plus_full. apply Zmod_mod. }
  assert (H2 : forall y, (y mod (256 * 256 ^ Z.of_nat w)) / 256 = (y / 256) mod 256 ^ Z.of_nat w).
  { intros y. rewrite Z.rem_mul_r by lia. rewrite Z.mul_comm, Z_div_plus_full by lia. rewrite (Zdiv_small (y mod 256)); [lia|]. apply Z.mod_pos_bound. lia. }
  f_equal; [rewrite <- (H1 z), <- (H1 z'), H; reflexivity|]. apply IH. rewrite <- H2, <- H2, H. reflexivity.
Qed.

Lemma le_value_bytes w : forall z, le_value (le_bytes w z) = z mod 256 ^ Z.of_nat w.
Proof.
  induction w as [|w IH]; intros z; [rewrite Z.mod_1_r; reflexivity|]. cbn [le_bytes le_value]. rewrite IH, Nat2Z.inj_succ, Z.pow_succ_r by lia.
  rewrite Z.rem_mul_r; [reflexivity|lia|]. apply Z.pow_pos_nonneg; lia.
Qed.

Lemma uint_add w a b : uint w (le_value (uint w a) + b) = uint w (a + b).
Proof. unfold uint. apply le_bytes_mod. rewrite le_value_bytes. rewrite Zplus_mod_idemp_l. reflexivity. Qed.

Lemma add_product_any w : any_order (add_product w).
Proof. intros v a b. unfold add_product. rewrite !uint_add. f_equal. lia. Qed.

Lemma add_product_two w c a b : add_product w (uint w c) [uint w a; uint w b] = uint w (c + a * b).
Proof.
  unfold add_product. rewrite uint_add. cbn [map fold_right]. rewrite Z.mul_1_r. unfold uint. rewrite !le_value_bytes. apply le_bytes_mod.
  rewrite <- Zplus_mod_idemp_r, <- Zmult_mod, Zplus_mod_idemp_r. reflexivity.
Qed.

Lemma add_product_sum w (g : Z -> Z * Z) l : forall c,
  fold_left (fun v k => add_product w v [uint w (fst (g k)); uint w (snd (g k))]) l (uint w c) = uint w (c + fold_right Z.add 0 (map (fun k => fst (g k) * snd (g k)) l)).
Proof.
  induction l as [|k l IH]; intros c; cbn [fold_left map fold_right]; [rewrite Z.add_0_r; reflexivity|]. rewrite add_product_two, IH. f_equal. lia.
Qed.

(** ** Products of matrices *)

Section Matmul.
  Variables (w : nat) (a b c c' : bag) (ss : list struct) (p : proto) (i j k : dim) (ni nj nk : Z) (A B C : Z -> Z -> Z).
  Hypothesis Hd : loops rearranges ss p [(i, ni); (j, nj); (k, nk)].
  Hypothesis Ha : good_bag a [(i, ni); (k, nk)].
  Hypothesis Hb : good_bag b [(k, nk); (j, nj)].
  Hypothesis Va : forall y z, 0 <= y < ni -> 0 <= z < nk -> has_value a (at_ij i k y z) (uint w (A y z)).
  Hypothesis Vb : forall y z, 0 <= y < nk -> 0 <= z < nj -> has_value b (at_ij k j y z) (uint w (B y z)).

  Definition matmul_vals (x : asg) : list bytes := [uint w (A (x i) (x k)); uint w (B (x k) (x j))].

  Let Hdist : i <> j /\ i <> k /\ j <> k.
  Proof.
    pose proof (proj1 (proj1 Hd)) as Hnd. cbn [map fst] in Hnd. inversion Hnd as [|? ? N1 N2]; subst. inversion N2 as [|? ? N3 _]; subst.
    split; [intros ->; apply N1; left; reflexivity|]. split; [intros ->; apply N1; right; left; reflexivity|intros ->; apply N3; left; reflexivity].
  Qed.

  Lemma matmul_bags : good_bags [a; b] ([(i, ni); (j, nj)] ++ [(k, nk)]).
  Proof.
    assert (Hw : forall l, incl l [(i, ni); (j, nj); (k, nk)] -> within_lengths [(i, ni); (j, nj); (k, nk)] l) by (intros l Hl q n Hq; exists n; split; [apply Hl, Hq|lia]).
    intros b0 [<-|[<-|[]]]; eexists; (split; [eassumption|]); apply Hw; intros q Hq; cbn in Hq |- *; tauto.
  Qed.

  Lemma matmul_box y z : 0 <= y < ni -> 0 <= z < nj -> in_box [(i, ni); (j, nj)] (at_ij i j y z).
  Proof.
    destruct Hdist as (Hij & _). intros Hy Hz q n [E|[E|[]]]; injection E as <- <-; unfold at_ij; rewrite Z.eqb_refl; [exact Hy|]. destruct (Z.eqb_spec j i); [congruence|exact Hz].
  Qed.

  Lemma matmul_have x : in_box ([(i, ni); (j, nj)] ++ [(k, nk)]) x -> have_values [a; b] x (matmul_vals x).
  Proof.
    destruct Hdist as (Hij & Hik & Hjk).
    intros Hx'. assert (Xi : 0 <= x i < ni) by (apply (Hx' i ni); left; reflexivity). assert (Xj : 0 <= x j < nj) by (apply (Hx' j nj); right; left; reflexivity).
    assert (Xk : 0 <= x k < nk) by (apply (Hx' k nk); right; right; left; reflexivity).
    unfold matmul_vals. constructor; [|constructor; [|constructor]].
    - destruct (Va (x i) (x k) Xi Xk) as (st & Hn & Er). exists st. split; [|exact Er]. eapply named_same; [|exact Hn]. intros d Hd'. apply (proj1 (proj2 (proj1 Ha))) in Hd'.
      destruct Hd' as [<-|[<-|[]]]; cbn [fst]; unfold at_ij; rewrite Z.eqb_refl; [reflexivity|]. destruct (Z.eqb_spec k i); [congruence|reflexivity].
    - destruct (Vb (x k) (x j) Xk Xj) as (st & Hn & Er). exists st. split; [|exact Er]. eapply named_same; [|exact Hn]. intros d Hd'. apply (proj1 (proj2 (proj1 Hb))) in Hd'.
      destruct Hd' as [<-|[<-|[]]]; cbn [fst]; unfold at_ij; rewrite Z.eqb_refl; [reflexivity|]. destruct (Z.eqb_spec j k); [congruence|reflexivity].
  Qed.

  Lemma matmul_fold y z v0 : fold_left (fun v js => add_product w v (matmul_vals (along [(k, nk)] js (at_ij i j y z)))) (all_indices [(k, nk)]) (uint w v0) =
    uint w (v0 + sum nk (fun l => A y l * B l z)).
  Proof.
    destruct Hdist as (Hij & Hik & Hjk). unfold sum. rewrite <- (add_product_sum w (fun l => (A y l, B l z))). cbn [fst snd all_indices].
    generalize (uint w v0). generalize (zseq nk). intros l. induction l as [|l0 l IH]; intros v; [reflexivity|]. cbn [flat_map map app fold_left]. rewrite IH. f_equal. f_equal.
    unfold matmul_vals, along, mem, at_ij. cbn [map fst existsb idx orb]. rewrite !Z.eqb_refl. cbn [orb].
    rewrite (proj2 (Z.eqb_neq i k)), (proj2 (Z.eqb_neq j k)), (proj2 (Z.eqb_neq j i)) by congruence. cbn [orb]. reflexivity.
  Qed.

  Hypothesis Hc : good_bag c [(i, ni); (j, nj)].
  Hypothesis Hnb : nobcast (bg_struct c) = true.
  Hypothesis El : run_loop (add_product w) [a; b] c (order (traverser ss) p) = Done c'.
  Hypothesis Vc : forall y z, 0 <= y < ni -> 0 <= z < nj -> has_value c (at_ij i j y z) (uint w (C y z)).

  Theorem matmul y z : 0 <= y < ni -> 0 <= z < nj -> has_value c' (at_ij i j y z) (uint w (C y z + sum nk (fun l => A y l * B l z))).
  Proof.
    intros Hy Hz. rewrite <- matmul_fold. unfold run_loop in El. destruct (for_each (order (traverser ss) p) []) as [| |calls] eqn:E; try discriminate. cbn [out_bind] in El.
    refine (kernel_reduce (add_product w) [a; b] c c' ss p [(i, ni); (j, nj)] [(k, nk)] calls calls Hd matmul_bags Hc Hnb (add_product_any w) E (Permutation_refl _) El matmul_vals (at_ij i j y z) (uint w (C y z)) matmul_have (matmul_box y z Hy Hz) (Vc y z Hy Hz)).
  Qed.
End Matmul.

(** ** One call for each element *)

Section Pointwise.
  Variables (f : bytes -> list bytes -> bytes) (ins : list bag) (out out' : bag) (ss : list struct) (p : proto) (lens : list (dim * Z)) (calls sched : list state).
  Let t := order (traverser ss) p.
  Hypothesis Hd : loops rearranges ss p lens.
  Hypothesis Hins : good_bags ins lens.
  Hypothesis Hout : good_bag out lens.
  Hypothesis Hnb : nobcast (bg_struct out) = true.
  Hypothesis E : for_each t [] = Done calls.
  Hypothesis Hs : Permutation calls sched.
  Hypothesis El : loop f ins out sched = Done out'.
  Variables (vals : asg -> list bytes) (x : asg) (v : bytes).
  Hypothesis Hvals : forall y, in_box lens y -> have_values ins y (vals y).
  Hypothesis Hx : in_box lens x.
  Hypothesis Hv : has_value out x v.

  Theorem kernel_pointwise : has_value out' x (f v (vals x)).
  Proof.
    assert (Hlo : within_lengths lens lens) by (intros q n Hq; exists n; split; [exact Hq|lia]).
    pose proof (loops_documented _ _ _ Hd) as Hdoc.
    destruct (kernel_calls f ins out out' ss p lens lens calls sched Hdoc Hins Hout Hlo E Hs Hnb El vals x v Hvals Hx Hv) as (_ & _ & H).
    destruct Hdoc as (H1 & H2 & H3 & H4 & H5). pose proof (calls_box ss p lens calls H1 H2 H3 H4 E (fun r => H5 calls r E) (proj1 (proj2 (proj2 (proj2 Hd))))) as P0. assert (P : Permutation (map (key lens) sched) (all_indices lens)) by (rewrite <- P0; apply Permutation_map, Permutation_sym, Hs).
    pose proof (calls_once ss p lens calls H1 H2 H3 H4 E (fun r => H5 calls r E)) as Nk0. assert (Nk : NoDup (map (key lens) sched)) by (apply (Permutation_NoDup (Permutation_map _ Hs) Nk0)).
    assert (Hr : exists r, In r sched /\ key lens r = map x (map fst lens)).
    { pose proof (box_in lens x Hx) as Hk. apply (Permutation_in _ (Permutation_sym P)) in Hk. apply in_map_iff in Hk. destruct Hk as (r & Er & Hr). eauto. }
    destruct Hr as (r & Hr & Er).
    assert (Hkey : forall r', agrees (map fst lens) x (asg_of r') = true <-> key lens r' = map x (map fst lens)).
    { intros r'. rewrite agrees_all. unfold key. split; [intros Ha; apply map_ext_in, Ha|]. intros Em d Hin. clear - Em Hin. induction (map fst lens) as [|q m IH]; [destruct Hin|].
      cbn [map] in Em. injection Em as E1 E2. destruct Hin as [<-|Hin]; auto. }
    rewrite (filter_one _ sched r) in H.
    - cbn [fold_left] in H. replace (vals x) with (vals (asg_of r)); [exact H|]. apply (vals_same ins lens Hins vals Hvals x); [exact Hx|]. apply agrees_all, Hkey, Er.
    - clear - Nk. revert Nk. generalize (key lens). intros g. induction sched as [|a m IH]; intros Nk; [constructor|]. cbn [map] in Nk. inversion Nk as [|? ? N1 N2]; subst.
      constructor; [intros Hin; apply N1, in_map, Hin|auto].
    - exact Hr.
    - intros r' Hr'. rewrite Hkey, <- Er. split; [|intros ->; reflexivity]. intros Ek. clear - Nk Hr Hr' Ek. revert Nk Ek. generalize (key lens). intros g Nk Ek. induction sched as [|a m IH]; [destruct Hr|].
      cbn [map] in Nk. inversion Nk as [|? ? N1 N2]; subst. destruct Hr as [->|Hr], Hr' as [->|Hr']; [reflexivity| | |auto].
      + exfalso. apply N1. rewrite <- Ek. apply in_map, Hr'.
      + exfalso. apply N1. rewrite Ek. apply in_map, Hr.
  Qed.
End Pointwise.
