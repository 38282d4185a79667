(** * Reductions into bags: the value of each element *)

From Coq Require Import Permutation.
From Verif Require Import TravDef ReduceFacts.
From Verif Require Export ReduceBagFacts.
From Verif Require Import SpecReduceBag.

Lemma each_defined t : uswf (top_struct t) = true -> no_empty_tuple (top_struct t) ->
  lenok (top_struct t) nolens -> (forall a, good (top_struct t) nolens a) -> for_each t [] <> Undefined.
Proof.
  intros Hw He Hlk Hg. unfold for_each, for_sections_with, for_tree. unfold no_empty_tuple in *.
  destruct (signature (top_struct t)) as [sg|] eqn:Es; [|discriminate]. cbn [obind sections_tree].
  destruct (fe_ok _ _ _ _ _); [|discriminate].
  assert (H : fe_run (top_struct t) sg (sig_dim_tree sg) [] <> Undefined).
  { apply run_defined; auto; try (eapply uswf_snodup; eassumption); try (intros ? ?; reflexivity); try (intros ? ? ? ?; reflexivity). split; try (intros; discriminate).
    - reflexivity.
    - intros a p _ _ d _ H. exfalso. apply H. reflexivity.
    - auto. }
  destruct (fe_run _ _ _ _); cbn [out_map out_bind]; [discriminate|congruence|]. destruct (omap _ _); discriminate.
Qed.

Lemma plain_filled sg : GoodFacts.plain sg = true -> filled sg = true.
Proof. induction sg as [c| |d al r IH|d rs IH] using sig_ind'; intros H; try reflexivity; [apply IH, H|discriminate]. Qed.

Lemma outs_defined s lo : cube s lo -> sound_struct s -> for_each (traverser [s]) [] <> Undefined.
Proof.
  intros Hc (Hw & Hlk & Hg & _). apply each_defined; change (top_struct (traverser [s])) with (Union [s]).
  - cbn. rewrite (swf_uswf s Hw). reflexivity.
  - unfold no_empty_tuple. rewrite signature_one. destruct (cube_sig _ _ Hc) as (sg & -> & Hp & _). apply plain_filled, Hp.
  - cbn. auto.
  - intros a. apply good_one, Hg.
Qed.

Lemma same_asg st st' q : same_get st st' -> asg_of st' q = asg_of st q.
Proof. intros H. unfold asg_of. rewrite (proj1 (H q)). reflexivity. Qed.

Section Run.
  Variables (P : bytes -> Prop) (op : bytes -> bytes -> bytes) (e : bytes) (g : list bytes -> bytes).
  Variables (ins : list bag) (vals : asg -> list bytes) (place : state -> list bytes -> state) (dest : asg -> asg).
  Variables (ss : list struct) (p : proto) (lens lo : list (dim * Z)) (out : bag) (l calls : list state) (threads : list (bytes * list (list state))).
  Let t := order (traverser ss) p.
  Let f (v : bytes) (xs : list bytes) : bytes := op v (g xs).
  Hypothesis Hd : loops rearranges ss p lens.
  Hypothesis Hins : good_bags ins lens.
  Hypothesis Hvals : forall y, in_box lens y -> have_values ins y (vals y).
  Hypothesis Hout : good_bag out lo.
  Hypothesis Hlo : NoDup (map fst lo).
  Hypothesis Hnb : nobcast (bg_struct out) = true.
  Hypothesis Hup : updates vals place lens out lo dest.
  Hypothesis El : for_each t [] = Done l.
  Hypothesis Hrun : some_run t (bg_struct out) calls threads.

  Lemma run_works : exists works, Forall2 same_get l works /\ Permutation calls works /\ Permutation (concat (concat (map snd threads))) works.
  Proof using Hd El Hrun.
    destruct Hrun as ((r & tr & works & Hr & Hw & P1 & P2) & _). exists (concat works). split; [|split; [exact P1|apply perm_concat_works, P2]].
    apply (pieces_calls t r tr l works); auto; [apply order_not_view|]. apply uswf_distinct; [apply Hd|]. eapply for_each_signature; eauto.
  Qed.

  Lemma call_at r : In r l -> has_indices lens (asg_of r) r /\ in_box lens (asg_of r).
  Proof using Hd El.
    intros Hr. destruct (loops_documented _ _ _ Hd) as (H1 & H2 & H3 & H4 & H5).
    destruct (call_facts ss p lens l H1 H2 H3 H4 El (fun r => H5 l r El) r Hr) as (A & B & C). split; [split; [exact A|exact B]|exact C].
  Qed.

  Section Works.
    Variable works : list state.
    Hypothesis F : Forall2 same_get l works.

    Lemma work_at r : In r works -> has_indices lens (asg_of r) r /\ in_box lens (asg_of r).
    Proof using Hd El F.
      intros Hr. destruct (Forall2_In_r _ _ _ _ F Hr) as (r0 & H0 & Hs). destruct (call_at r0 H0) as ((A & B) & C). split; [split|].
      - intros d. rewrite <- (proj2 (Hs d)). apply A.
      - intros q Hq. rewrite (same_asg r0 r q Hs), <- (proj1 (Hs q)). apply B, Hq.
      - intros q n Hq. rewrite (same_asg r0 r q Hs). apply (C q n Hq).
    Qed.

    Lemma in_named s b r : cube s b -> within_lengths lens b -> In r works -> named s (asg_of r) r /\ in_box b (asg_of r).
    Proof using Hd El F.
      intros (_ & Hc & _) Hl Hr. destruct (work_at r Hr) as ((A & B) & C). split; [split; [exact A|]|apply (within_box lens b _ Hl C)].
      intros d Hs. apply Hc in Hs. destruct (fst_in _ _ Hs) as [n Hn]. destruct (Hl d n Hn) as (m & Hm & _). apply B. eapply in_fst; eauto.
    Qed.

    Lemma work_vals r xs : In r works -> reads ins r = Done xs -> xs = vals (asg_of r).
    Proof using Hd Hins Hvals El F.
      intros Hr E. destruct (work_at r Hr) as [_ Hb]. apply (have_once ins lens (asg_of r) _ _ Hins Hb (Hvals _ Hb)).
      pose proof (reads_inv ins r xs E) as Fx. clear E. assert (Hi : forall b, In b ins -> named (bg_struct b) (asg_of r) r).
      { intros b Hin. destruct (Hins b Hin) as (lb & (Hc & _) & Hl). apply (in_named _ lb r Hc Hl Hr). }
      clear - Fx Hi. induction Fx as [|b w ins xs Hw F IH]; constructor.
      - exists r. split; [|exact Hw]. apply Hi. left. reflexivity.
      - apply IH. intros b0 Hb0. apply Hi. right. exact Hb0.
    Qed.

    Lemma work_defined r : In r works -> reads ins r <> Undefined.
    Proof using Hd Hins El F.
      intros Hr. apply reads_defined. intros b Hb. destruct (Hins b Hb) as (lb & Hg & Hl). exists lb. split; [exact Hg|]. apply in_named; auto. apply Hg.
    Qed.

    Lemma out_dims d : has_dim (bg_struct out) d <-> In d (map fst lo).
    Proof using Hout. apply Hout. Qed.

    Lemma work_hits C : (forall r, In r C -> In r works) -> hits (reads ins) place (bg_struct out) lo C.
    Proof using Hd Hins Hvals Hout Hup El F.
      intros HC r xs Hr E. specialize (HC r Hr). rewrite (work_vals r xs HC E). destruct (work_at r HC) as [Hi Hb]. destruct (Hup _ r Hb Hi) as [Hn Hx].
      assert (Hd' : forall d, has_dim (bg_struct out) d -> asg_of (place r (vals (asg_of r))) d = dest (asg_of r) d) by (intros d; apply (named_at _ _ _ Hn)).
      split; [eapply named_same; [exact Hd'|exact Hn]|]. intros q n Hq. rewrite Hd' by (apply out_dims; eapply in_fst; eauto). apply (Hx q n Hq).
    Qed.

    Lemma total_parts C x v : Permutation C works -> (forall st, In st C -> exists xs, reads ins st = Done xs) ->
      sums P op e -> (forall y, in_box lens y -> P (g (vals y))) -> P v ->
      fold_left op (parts g (reads ins) place lo x C) v =
      fold_left (fun v is => op v (g (vals (idx lens is)))) (filter (fun is => agrees (map fst lo) x (dest (idx lens is))) (all_indices lens)) v.
    Proof using Hd Hins Hvals Hout Hup El F.
      intros PC HC Hm Pg Pv. assert (HW : forall st, In st works -> exists xs, reads ins st = Done xs) by (intros st Hst; apply HC, (Permutation_in _ (Permutation_sym PC)), Hst).
      assert (Hval : forall st, In st works -> values (reads ins) st = vals (asg_of st)).
      { intros st Hst. destruct (HW st Hst) as (xs & E). unfold values. rewrite E. apply (work_vals st xs Hst E). }
      assert (Hidx : forall st, In st works -> forall d, In d (map fst lens) -> idx lens (key lens st) d = asg_of st d) by (intros st _ d Hin; unfold key; apply idx_of, Hin).
      assert (Hvi : forall st, In st works -> vals (idx lens (key lens st)) = vals (asg_of st)).
      { intros st Hst. apply (vals_same ins lens Hins vals Hvals (asg_of st)); [apply (work_at st Hst)|apply Hidx, Hst]. }
      assert (Pp : forall C', Permutation C' works -> Forall P (parts g (reads ins) place lo x C')).
      { intros C' PC'. apply parts_P. intros st Hst. apply (Permutation_in _ PC') in Hst. rewrite (Hval st Hst). apply Pg, (work_at st Hst). }
      rewrite (fold_sum_perm P op e Hm _ (parts g (reads ins) place lo x works)); [|apply Permutation_map, filter_perm, PC|exact Pv|apply Pp, PC].
      unfold parts. rewrite <- fold_map.
      rewrite (fold_mapped (fun v is => op v (g (vals (idx lens is)))) (key lens) (fun is => agrees (map fst lo) x (dest (idx lens is)))).
      - assert (Hk : Permutation (map (key lens) works) (all_indices lens)).
        { pose proof (proj1 (proj2 (proj2 (proj2 Hd)))) as Hre. destruct (loops_documented _ _ _ Hd) as (H1 & H2 & H3 & H4 & H5).
          rewrite <- (calls_box ss p lens l H1 H2 H3 H4 El (fun r => H5 l r El) Hre). replace (map (key lens) works) with (map (key lens) l); [apply Permutation_refl|].
          clear - F. induction F as [|a b la lb Hab F' IH]; [reflexivity|]. cbn [map]. f_equal; [|exact (IH F')]. unfold key. apply map_ext. intros q. symmetry. apply same_asg, Hab. }
        rewrite !(fold_map op (fun is => g (vals (idx lens is)))).
        apply (fold_sum_perm P op e Hm); [apply Permutation_map, filter_perm, Hk|exact Pv|].
        apply Forall_forall. intros a Ha. apply in_map_iff in Ha. destruct Ha as (is & <- & His). apply filter_In in His. destruct His as [His _].
        apply (Permutation_in _ Hk) in His. apply Pg. apply box_idx; [apply Hd|exact His].
      - intros st Hst. unfold spot. rewrite (Hval st Hst). destruct (work_at st Hst) as [(A & B) Cb]. rewrite <- (Hvi st Hst).
        assert (Hb' : in_box lens (idx lens (key lens st))) by (intros q n Hq; rewrite (Hidx st Hst) by (eapply in_fst; eauto); apply (Cb q n Hq)).
        destruct (Hup (idx lens (key lens st)) st Hb') as [Hn _]; [split; [exact A|intros q Hq; rewrite (Hidx st Hst q Hq); apply B, Hq]|].
        unfold agrees. apply forallb_same. intros d Hin. rewrite (named_at _ _ _ Hn d); [reflexivity|]. apply out_dims, Hin.
      - intros w st Hst. rewrite (Hval st Hst), (Hvi st Hst). reflexivity.
    Qed.
  End Works.

  (** One after another, in any order. *)
  Theorem scatter_value sched out' x v : Permutation l sched -> add_all f (reads ins) place out sched = Done out' ->
    sums P op e -> (forall y, in_box lens y -> P (g (vals y))) -> in_box lo x -> has_value out x v -> P v ->
    bg_struct out' = bg_struct out /\ good_bag out' lo /\
    has_value out' x (fold_left (fun v is => op v (g (vals (idx lens is)))) (filter (fun is => agrees (map fst lo) x (dest (idx lens is))) (all_indices lens)) v).
  Proof using Hd Hins Hvals Hout Hnb Hup El.
    intros Ps E Hm Pg Hx (st0 & Hn0 & E0) Pv. assert (F : Forall2 same_get l l) by (clear; induction l; constructor; [split; reflexivity|assumption]).
    pose proof (Permutation_sym Ps) as P1.
    assert (Hh : hits (reads ins) place (bg_struct out) lo sched) by (apply (work_hits l F); intros r Hr; apply (Permutation_in _ P1 Hr)).
    destruct (add_keeps f (reads ins) place lo sched out out' Hout Hh E) as (A & B & _ & _ & R). split; [exact B|]. split; [exact A|]. exists st0. split; [rewrite B; exact Hn0|].
    rewrite (add_parts op g (reads ins) place (bg_struct out) lo Hnb out out' sched x st0 v eq_refl Hout Hh E Hx Hn0 E0). f_equal.
    apply (total_parts l F sched x v P1); auto. intros st Hst. apply (R st Hst).
  Qed.

  Theorem scatter_defined sched : Permutation l sched -> add_all f (reads ins) place out sched <> Undefined.
  Proof using Hd Hins Hvals Hout Hup El.
    intros Ps. assert (F : Forall2 same_get l l) by (clear; induction l; constructor; [split; reflexivity|assumption]). pose proof (Permutation_sym Ps) as P1.
    apply (add_defined f (reads ins) place lo sched out Hout); [apply (work_hits l F); intros r Hr; apply (Permutation_in _ P1 Hr)|].
    intros st Hst. apply (work_defined l F), (Permutation_in _ P1 Hst).
  Qed.

  Theorem reduce_defined : tbb_reduce_bag op e f (reads ins) place t out calls threads <> Undefined.
  Proof using Hd Hins Hvals Hout Hlo Hnb Hup El Hrun.
    destruct run_works as (works & F & P1 & P2). unfold tbb_reduce_bag. pose proof Hout as (Hc & Hs & _).
    assert (Hsh : add_all f (reads ins) place out calls <> Undefined).
    { apply (add_defined f (reads ins) place lo calls out Hout); [apply (work_hits works F); intros r Hr; apply (Permutation_in _ P1 Hr)|].
      intros st Hst. apply (work_defined works F), (Permutation_in _ P1 Hst). }
    assert (Hpr : bg_policy out <> ConstRaw -> out_bind (for_each (traverser [bg_struct out]) []) (fun outs => join_threads op e f (reads ins) place outs threads out) <> Undefined).
    { intros Hp. pose proof (outs_defined _ lo Hc Hs). destruct (for_each (traverser [bg_struct out]) []) as [| |outs] eqn:E; cbn [out_bind]; try congruence.
      apply (join_defined op e g (reads ins) place (bg_struct out) lo outs Hc Hs Hlo Hnb E threads out eq_refl Hp Hout); [apply Hrun| |].
      - apply (work_hits works F). intros r Hr. apply (Permutation_in _ P2 Hr).
      - intros st Hst. apply (work_defined works F), (Permutation_in _ P2 Hst). }
    destruct (bg_policy out); try discriminate; (destruct (shares t (bg_struct out)) as [[|]|]; [exact Hsh|apply Hpr; discriminate|discriminate]).
  Qed.

  Variable out' : bag.
  Hypothesis Er : tbb_reduce_bag op e f (reads ins) place t out calls threads = Done out'.

  Theorem reduce_value x v : sums P op e -> (forall y, in_box lens y -> P (g (vals y))) -> in_box lo x -> has_value out x v -> P v ->
    bg_struct out' = bg_struct out /\ good_bag out' lo /\
    has_value out' x (fold_left (fun v is => op v (g (vals (idx lens is)))) (filter (fun is => agrees (map fst lo) x (dest (idx lens is))) (all_indices lens)) v).
  Proof using Hd Hins Hvals Hout Hlo Hnb Hup El Hrun Er.
    intros Hm Pg Hx Hv Pv. destruct run_works as (works & F & P1 & P2). pose proof Hout as (Hc & Hs & _). destruct Hv as (st0 & Hn0 & E0).
    assert (Hsh : add_all f (reads ins) place out calls = Done out' -> bg_struct out' = bg_struct out /\ good_bag out' lo /\
      has_value out' x (fold_left (fun v is => op v (g (vals (idx lens is)))) (filter (fun is => agrees (map fst lo) x (dest (idx lens is))) (all_indices lens)) v)).
    { intros E. assert (Hh : hits (reads ins) place (bg_struct out) lo calls) by (apply (work_hits works F); intros r Hr; apply (Permutation_in _ P1 Hr)).
      destruct (add_keeps f (reads ins) place lo calls out out' Hout Hh E) as (A & B & _ & _ & R). split; [exact B|]. split; [exact A|]. exists st0. split; [rewrite B; exact Hn0|].
      rewrite (add_parts op g (reads ins) place (bg_struct out) lo Hnb out out' calls x st0 v eq_refl Hout Hh E Hx Hn0 E0). f_equal.
      apply (total_parts works F calls x v P1); auto. intros st Hst. apply (R st Hst). }
    assert (Hpr : out_bind (for_each (traverser [bg_struct out]) []) (fun outs => join_threads op e f (reads ins) place outs threads out) = Done out' ->
      bg_struct out' = bg_struct out /\ good_bag out' lo /\
      has_value out' x (fold_left (fun v is => op v (g (vals (idx lens is)))) (filter (fun is => agrees (map fst lo) x (dest (idx lens is))) (all_indices lens)) v)).
    { intros Ej. destruct (for_each (traverser [bg_struct out]) []) as [| |outs] eqn:E; try discriminate. cbn [out_bind] in Ej.
      assert (Hh : hits (reads ins) place (bg_struct out) lo (concat (concat (map snd threads)))) by (apply (work_hits works F); intros r Hr; apply (Permutation_in _ P2 Hr)).
      destruct (joined P op e g (reads ins) place (bg_struct out) lo outs Hm Hc Hs Hlo Hnb E threads out out' eq_refl Hout Ej (proj2 Hrun) Hh) as (A & B & R & Rd & V).
      split; [exact A|]. split; [exact B|]. rewrite <- (total_parts works F _ x v P2 R Hm Pg Pv).
      assert (Pt : forall st, In st (concat (concat (map snd threads))) -> P (g (values (reads ins) st))).
      { intros st Hst. destruct (R st Hst) as (xs & Exs). unfold values. rewrite Exs. pose proof (Permutation_in _ P2 Hst) as Hw. rewrite (work_vals works F st xs Hw Exs).
        apply Pg, (work_at works F st Hw). }
      destruct Rd as [->|Rd]; [cbn in Ej; injection Ej as <-; exists st0; split; [exact Hn0|exact E0]|].
      destruct (one_named (bg_struct out) lo outs Hc Hs Hlo E x Hx) as (r & Hr & Hnr). exists r. split; [rewrite A; exact Hnr|].
      apply (V x r v Hx Hr Hnr); auto. destruct (Rd r Hr) as (v' & Ev'). rewrite Ev'. f_equal. exact (same_read out lo Hout x st0 r v v' Hx Hn0 Hnr E0 Ev'). }
    unfold tbb_reduce_bag in Er. destruct (bg_policy out); try discriminate; (destruct (shares t (bg_struct out)) as [[|]|]; [exact (Hsh Er)|exact (Hpr Er)|discriminate]).
  Qed.
End Run.

(** ** Adding up along dimensions *)

Lemma here_updates vals lo lr out : good_bag out lo -> updates vals here (lo ++ lr) out lo (fun y => y).
Proof.
  intros (Hc & _) y st Hy (H1 & H2). split; [split; [exact H1|]|].
  - intros d Hd. apply H2. rewrite map_app. apply in_or_app. left. apply (proj1 (proj2 Hc)), Hd.
  - intros q n Hq. apply (Hy q n). apply in_or_app. left. exact Hq.
Qed.

Lemma nodup_left {A} (a b : list A) : NoDup (a ++ b) -> NoDup a.
Proof. induction a as [|x a IH]; intros H; [constructor|]. inversion H as [|? ? H1 H2]; subst. constructor; [intros Hx; apply H1, in_or_app; left; exact Hx|apply IH, H2]. Qed.

Theorem reduce_along_dims P op e g ins vals ss p lo lr out out' l calls threads x v :
  sums P op e -> loops rearranges ss p (lo ++ lr) -> good_bags ins (lo ++ lr) -> (forall y, in_box (lo ++ lr) y -> have_values ins y (vals y)) ->
  (forall y, in_box (lo ++ lr) y -> P (g (vals y))) -> good_bag out lo -> nobcast (bg_struct out) = true ->
  for_each (order (traverser ss) p) [] = Done l -> some_run (order (traverser ss) p) (bg_struct out) calls threads ->
  tbb_reduce_bag op e (fun v xs => op v (g xs)) (reads ins) here (order (traverser ss) p) out calls threads = Done out' ->
  in_box lo x -> has_value out x v -> P v -> has_value out' x (fold_left (fun v js => op v (g (vals (along lr js x)))) (all_indices lr) v).
Proof.
  intros Hm Hd Hins Hvals Pg Hout Hnb El Hrun Er Hx Hv Pv. pose proof (proj1 (proj1 Hd)) as Hnd.
  assert (Hlo : NoDup (map fst lo)) by (rewrite map_app in Hnd; exact (nodup_left _ _ Hnd)).
  destruct (reduce_value P op e g ins vals here (fun y => y) ss p (lo ++ lr) lo out l calls threads Hd Hins Hvals Hout Hlo Hnb (here_updates vals lo lr out Hout) El Hrun out' Er x v Hm Pg Hx Hv Pv)
    as (_ & _ & H). rewrite reduce_filter in H by assumption. rewrite (reduce_along (fun v xs => op v (g xs)) ins lo lr vals x v) in H by assumption. exact H.
Qed.

(** ** Unsigned integers *)

Lemma uint_plus_eq w a b : uint_plus w (uint w a) (uint w b) = uint w (a + b).
Proof. unfold uint_plus. rewrite uint_add. unfold uint. rewrite le_value_bytes. apply le_bytes_mod. apply Zplus_mod_idemp_r. Qed.

Lemma uint_sums w : sums (is_uint w) (uint_plus w) (uint w 0).
Proof.
  split; [exists 0; reflexivity|]. split; [intros a b (x & ->) (y & ->); exists (x + y); apply uint_plus_eq|]. split; [intros a (x & ->); apply uint_plus_eq|]. split.
  - intros a b (x & ->) (y & ->). rewrite !uint_plus_eq. f_equal. lia.
  - intros a b c (x & ->) (y & ->) (z & ->). rewrite !uint_plus_eq. f_equal. lia.
Qed.

Lemma fold_uint {A} w (h : A -> Z) l : forall z, fold_left (fun v a => uint_plus w v (uint w (h a))) l (uint w z) = uint w (z + fold_right Z.add 0 (map h l)).
Proof. induction l as [|a l IH]; intros z; cbn [fold_left map fold_right]; [rewrite Z.add_0_r; reflexivity|]. rewrite uint_plus_eq, IH. f_equal. lia. Qed.

Lemma fold_count {A} w (l : list A) z : fold_left (fun v _ => uint_plus w v (uint w 1)) l (uint w z) = uint w (z + Z.of_nat (List.length l)).
Proof.
  rewrite (fold_uint w (fun _ => 1)). f_equal. f_equal. induction l as [|a l IH]; [reflexivity|]. cbn [map fold_right List.length]. rewrite IH. lia.
Qed.

(** ** Histograms *)

Section Histogram.
  Variables (w wi : nat) (values_bag out : bag) (ss : list struct) (p : proto) (lens : list (dim * Z)) (d : dim) (n : Z) (A : asg -> Z) (l : list state).
  Let t := order (traverser ss) p.
  Hypothesis Hd : loops rearranges ss p lens.
  Hypothesis Hin : good_bags [values_bag] lens.
  Hypothesis Hvals : forall y, in_box lens y -> has_value values_bag y (uint wi (A y)).
  Hypothesis HA : forall y, in_box lens y -> 0 <= A y < n /\ A y < 256 ^ Z.of_nat wi.
  Hypothesis Hout : good_bag out [(d, n)].
  Hypothesis Hnb : nobcast (bg_struct out) = true.
  Hypothesis El : for_each t [] = Done l.

  Let vals (y : asg) : list bytes := [uint wi (A y)].
  Let Hhv y : in_box lens y -> have_values [values_bag] y (vals y).
  Proof. intros Hy. constructor; [apply Hvals, Hy|constructor]. Qed.
  Let Hlo : NoDup (map fst [(d, n)]).
  Proof. constructor; [intros []|constructor]. Qed.

  Lemma length_small : n <= W.
  Proof using Hout.
    destruct Hout as ((_ & _ & H) & _). destruct (H d n (or_introl eq_refl)) as (len & _ & E). apply Z.lt_le_incl, (vz_range _ _ E).
  Qed.

  Lemma histogram_updates : updates vals (by_value d) lens out [(d, n)] (fun y _ => A y).
  Proof using HA Hout Hvals Hhv.
    pose proof length_small as Hn. intros y st Hy _. destruct (HA y Hy) as [H0 H1].
    split; [|intros q m [E|[]]; injection E as <- <-; exact H0]. unfold by_value, vals. cbn [hd]. unfold uint. rewrite le_value_bytes, Z.mod_small by lia.
    split; [reflexivity|]. intros q Hq. apply (proj1 (proj2 (proj1 Hout))) in Hq. destruct Hq as [<-|[]]. exists (Dyn (A y)). cbn [get tag_eqb fst]. rewrite Z.eqb_refl. split; [reflexivity|].
    cbn [vz]. rewrite u64_small by lia. reflexivity.
  Qed.

  Let total k z : fold_left (fun v (_ : list Z) => uint_plus w v (uint w 1)) (filter (fun is => agrees (map fst [(d, n)]) (fun _ => k) (fun _ => A (idx lens is))) (all_indices lens)) (uint w z) =
    uint w (z + count lens (fun y => A y =? k)).
  Proof.
    rewrite fold_count. unfold count. do 4 f_equal. apply filter_ext. intros is. unfold agrees. cbn [map fst forallb]. apply andb_true_r.
  Qed.
  Let one (_ : list bytes) : bytes := uint w 1.

  Theorem histogram_defined calls threads : some_run t (bg_struct out) calls threads ->
    tbb_reduce_bag (uint_plus w) (uint w 0) (add_one w) (reads [values_bag]) (by_value d) t out calls threads <> Undefined.
  Proof using Hd Hin Hvals HA Hout Hnb El.
    intros Hrun. exact (reduce_defined (uint_plus w) (uint w 0) one [values_bag] vals (by_value d) _ ss p lens [(d, n)] out l calls threads Hd Hin Hhv Hout Hlo Hnb histogram_updates El Hrun).
  Qed.

  Theorem histogram calls threads out' k z : some_run t (bg_struct out) calls threads ->
    tbb_reduce_bag (uint_plus w) (uint w 0) (add_one w) (reads [values_bag]) (by_value d) t out calls threads = Done out' ->
    0 <= k < n -> has_value out (fun _ => k) (uint w z) -> has_value out' (fun _ => k) (uint w (z + count lens (fun y => A y =? k))).
  Proof using Hd Hin Hvals HA Hout Hnb El.
    intros Hrun Er Hk Hv. rewrite <- total.
    refine (proj2 (proj2 (reduce_value (is_uint w) (uint_plus w) (uint w 0) one [values_bag] vals (by_value d) _ ss p lens [(d, n)] out l calls threads Hd Hin Hhv Hout Hlo Hnb histogram_updates El Hrun out' Er (fun _ => k) (uint w z) (uint_sums w) _ _ Hv _))).
    - intros y _. exists 1. reflexivity.
    - intros q m [E|[]]. injection E as <- <-. exact Hk.
    - exists z. reflexivity.
  Qed.

  Theorem histogram_loop sched out' k z : Permutation l sched -> add_all (add_one w) (reads [values_bag]) (by_value d) out sched = Done out' ->
    0 <= k < n -> has_value out (fun _ => k) (uint w z) -> has_value out' (fun _ => k) (uint w (z + count lens (fun y => A y =? k))).
  Proof using Hd Hin Hvals HA Hout Hnb El.
    intros Ps Er Hk Hv. rewrite <- total.
    refine (proj2 (proj2 (scatter_value (is_uint w) (uint_plus w) (uint w 0) one [values_bag] vals (by_value d) _ ss p lens [(d, n)] out l Hd Hin Hhv Hout Hnb histogram_updates El sched out' (fun _ => k) (uint w z) Ps Er (uint_sums w) _ _ Hv _))).
    - intros y _. exists 1. reflexivity.
    - intros q m [E|[]]. injection E as <- <-. exact Hk.
    - exists z. reflexivity.
  Qed.
End Histogram.
