(** * Planners over bags (C63) *)

From Verif Require Import PlanSec PlanRun PlanRangeFacts BagFacts Sections KernelThms.
From Verif Require Import SpecPlanElem.

(** ** Sections that complete the inner planner *)

Lemma order_nil t : order t [] = t.
Proof. destruct t as [s o]. unfold order. cbn [tr_struct tr_order]. rewrite app_nil_r. reflexivity. Qed.
Lemma pl_order_nil p : pl_order p [] = p.
Proof. destruct p as [t es]. unfold pl_order. cbn [pl_trav pl_endings]. rewrite order_nil. reflexivity. Qed.

Lemma fire_around t e st c : is_around e -> fire (fixed {| pl_trav := t; pl_endings := [e] |} st) = Some c ->
  c = CallAround (en_fun e) {| pl_trav := inner t st; pl_endings := [] |}.
Proof.
  intros He E. unfold fire in E. change (pl_trav (fixed _ st)) with (inner t st) in E. destruct (tr_state (inner t st)) as [s|]; [|discriminate]. cbn [obind] in E.
  cbn [fixed pl_order pl_endings] in E. destruct (endings_fix [e] s) as [ss|] eqn:Ef; [|discriminate]. cbn [obind] in E.
  apply endings_fix_In in Ef. inversion Ef as [|e0 g0 es0 gs Hg0 Hgs]; subst. inversion Hgs; subst. cbn [combine filter fst snd] in E. destruct (ground g0) eqn:E0; [|discriminate].
  red in He. rewrite He in E. unfold endings_next in E. cbn [combine filter snd] in E. rewrite E0 in E. cbn [negb map] in E. congruence.
Qed.

Lemma pairs_states (f : Z) (ss : list state) : map snd (map (pair f) ss) = ss.
Proof. induction ss as [|s ss IH]; [reflexivity|]. cbn [map snd]. rewrite IH. reflexivity. Qed.

Lemma nested_states dss : forall p o l, pl_endings p = [] -> plannable (order (pl_trav p) o) -> nested dss p o = Done l -> loop_states (order (pl_trav p) o) l.
Proof.
  induction dss as [|ds dss IH]; intros p o l Hp Ht E; cbn [nested] in E; destruct p as [t0 es]; cbn [pl_endings pl_trav] in *; subst es; set (t := order t0 o) in *.
  - unfold pl_for_each in E. cbn [pl_endings pl_trav] in E. destruct (signature (tr_struct t0)) as [sgu|] eqn:Eu; [|discriminate]. cbn [obind] in E.
    destruct (execute_all 1 _) as [| |evs] eqn:Ex; try discriminate. cbn [out_map] in E. injection E as <-.
    change (pl_order _ o) with {| pl_trav := t; pl_endings := [{| en_sig := sgu; en_kind := Body; en_fun := 0 |}] |} in Ex.
    destruct (execute_all_calls 1 t 0 sgu [] evs Ht Eu (Forall_nil _) Ex) as (ss & Hs & Hb). unfold elem_states. rewrite Hb, pairs_states. exact Hs.
  - destruct (pl_for_sections _ ds 0) as [q|] eqn:Eq; [|discriminate]. unfold pl_for_sections in Eq. cbn [pl_trav pl_endings app] in Eq. destruct (signature (tr_struct t0)) as [sgu|]; [|discriminate]. cbn [obind] in Eq.
    destruct (view_sig (VReorder ds) sgu) as [s1|]; [|discriminate]. cbn [obind] in Eq. set (e := {| en_sig := s1; en_kind := Around; en_fun := 0 |}) in Eq. destruct (endings_ok _) in Eq; [|discriminate].
    assert (Eq' : q = {| pl_trav := t0; pl_endings := [e] |}) by congruence. subst q. clear Eq. change (pl_order _ o) with {| pl_trav := t; pl_endings := [e] |} in E. set (q := {| pl_trav := t; pl_endings := [e] |}) in *.
    destruct (execute q) as [| |calls] eqn:Ex; try discriminate. cbn [out_bind] in E. unfold execute in Ex. cbn [pl_endings q pl_trav] in Ex. fold q in Ex.
    destruct (signature (top_struct t)) as [sg|] eqn:Es; [|discriminate]. pose proof (uswf_snodup _ _ (proj2 (proj2 Ht)) Es) as Hn.
    destruct (pe_ok _ _ _ _ _ _); [|discriminate]. destruct (pe_run (top_struct t) sg (activated q) (sig_dim_tree sg) []) as [| |sts] eqn:Er; try discriminate. cbn [out_bind] in Ex.
    destruct (omap (fun st => fire (fixed q st)) sts) as [calls'|] eqn:Ec; [|discriminate]. assert (calls' = calls) by congruence. subst calls'. clear Ex.
    destruct (cut_run (top_struct t) sg (activated q) Hn sg [] sts (reach_nil sg) Er) as (cs & C1 & _ & C3 & C4).
    apply omap_Some_Forall2 in Ec. apply out_cat_Done in E. destruct E as (parts & Hparts & ->).
    assert (H : exists xs, Forall2 (fun o y => o = Done y) (map (fun c => fe_run (top_struct t) sg (sig_dim_tree (snd c)) (fst c)) cs) xs /\
      Forall2 (fun x y => omap tr_state (map (inner t) x) = Some y) xs parts).
    { clear C4 Er. subst sts. revert calls parts Ec Hparts. induction cs as [|[st s] cs IHc]; intros calls parts Ec Hparts.
      - inversion Ec; subst. inversion Hparts; subst. exists []. split; constructor.
      - cbn [map fst] in Ec. inversion Ec as [|x c l calls' Hc Hcalls]; subst. cbn [map] in Hparts. inversion Hparts as [|o' ev l parts' Hev Hpl]; subst.
        destruct (IHc (fun c Hc => C3 c (or_intror Hc)) calls' parts' Hcalls Hpl) as (xs & X1 & X2). destruct (C3 _ (or_introl eq_refl)) as (Hr & _ & _). cbn [fst snd] in Hr.
        pose proof (fire_around t e st c eq_refl Hc) as Ec0. subst c.
        assert (Hl : loop_states (inner t st) ev). { rewrite <- (order_nil (inner t st)). apply (IH {| pl_trav := inner t st; pl_endings := [] |} [] ev eq_refl); [cbn [pl_trav]; rewrite order_nil; eapply plannable_inner; eauto|exact Hev]. }
        destruct Hl as (sg1 & sub & L1 & L2 & L3). rewrite top_inner in L1, L2. rewrite (reach_sig _ _ _ _ Es Hn Hr) in L1. assert (sg1 = s) by congruence. subst sg1.
        pose proof (section_run (top_struct t) sg s st Es Hn Hr) as Hsim. rewrite L2 in Hsim. destruct (fe_run (top_struct t) sg (sig_dim_tree s) st) as [| |x] eqn:E3; try contradiction. cbn [out_rel] in Hsim.
        exists (x :: xs). split; [cbn [map fst snd]; constructor; assumption|]. constructor; [|exact X2].
        rewrite <- L3, !omap_map. clear -Hsim. induction Hsim as [|a b x sub -> _ IHs]; [reflexivity|]. cbn [omap]. rewrite IHs, inner_inner. reflexivity. }
    destruct H as (xs & X1 & X2). exists sg, (concat xs). split; [exact Es|]. split; [rewrite C4; apply out_cat_Done_intro; exact X1|].
    rewrite omap_map. apply omap_concat. clear -X2. induction X2 as [|x y xs ys H _ IHx]; constructor; [rewrite <- omap_map; exact H|exact IHx].
Qed.

Lemma states_each t l all : loop_states t l -> for_each t [] = Done all -> l = all.
Proof.
  intros (sg & sub & L1 & L2 & L3) He. unfold for_each, for_sections_with, for_tree, sections_tree in He. rewrite L1 in He. cbn [obind] in He. destruct (fe_ok _ _ _ _ _); [|discriminate].
  rewrite L2 in He. cbn [out_map out_bind] in He. rewrite L3 in He. congruence.
Qed.

(** ** All ways to run a planner *)

Section Planned.
  Variables (ss : list struct) (o : proto) (all : list state).
  Notation t := (order (traverser ss) o).
  Hypothesis Hov : plans ss o.
  Hypothesis Hw : uswf (top_struct t) = true.
  Hypothesis Hall : for_each t [] = Done all.

  Theorem planned_same l : planned ss o l -> l = all.
  Proof using Hov Hw Hall.
    intros [f p secs q n evs Hp Hq Hx|dss l' E].
    - unfold elem_states. rewrite (plan_calls ss o f p secs q n evs all Hov Hw Hp Hq Hall Hx), pairs_states. reflexivity.
    - apply (states_each t); [|exact Hall]. apply (nested_states dss (plan ss) o l' eq_refl); [|exact E]. apply order_plannable; assumption.
  Qed.

  Theorem parallel_same l : planned_parallel ss o l -> exists sched, Permutation all sched /\ Forall2 same_get sched l.
  Proof using Hov Hw Hall.
    intros [f p secs q n ps evss sched Hp Hq Hps Hx Hperm]. destruct (inner_sections ss o f p all Hov Hw Hp Hall secs q n ps evss Hq Hps Hx) as (l' & Hb & Hs).
    unfold elem_states in Hperm. rewrite Hb, pairs_states in Hperm.
    assert (Hf : Forall2 (fun x y => same_get y x) l' all) by (clear -Hs; induction Hs; constructor; assumption).
    destruct (perm_Forall2 _ _ _ _ Hperm Hf) as (m & M1 & M2). exists m. split; [exact M1|]. clear -M2. induction M2; constructor; assumption.
  Qed.
End Planned.

(** ** The loop does not depend on how the states are written *)

Lemma reads_same ins st st' : (forall b, In b ins -> signature (bg_struct b) <> None) -> same_get st st' -> reads ins st = reads ins st'.
Proof.
  intros Hs Hg. induction ins as [|b ins IH]; [reflexivity|]. cbn [reads]. destruct (read_same b st st' (Hs b (or_introl eq_refl)) Hg) as (_ & -> & _). rewrite IH by (intros c Hc; apply Hs; right; exact Hc). reflexivity.
Qed.

Lemma loop_same f ins sts sts' : (forall b, In b ins -> signature (bg_struct b) <> None) -> Forall2 same_get sts sts' -> forall out, signature (bg_struct out) <> None -> loop f ins out sts = loop f ins out sts'.
Proof.
  intros Hs F. unfold loop. induction F as [|st st' sts sts' Hg F IH]; intros out Ho; [reflexivity|]. cbn [loop_with]. unfold update_with.
  destruct (read_same out st st' Ho Hg) as (Hr & -> & _). rewrite (reads_same ins st st' Hs Hg). unfold bag_write. rewrite Hr.
  destruct (bag_read out st') as [| |v]; cbn [out_bind]; try reflexivity. destruct (reads ins st') as [| |xs]; cbn [out_bind]; try reflexivity.
  destruct (bg_policy out); try reflexivity; destruct (bag_ref out st') as [| |r]; cbn [out_bind]; try reflexivity; destruct (_ =? _); cbn [out_bind]; try reflexivity; apply IH; exact Ho.
Qed.

(** ** What is computed *)

Lemma union_signature ss : signature (Union ss) <> None -> forall s, In s ss -> signature s <> None.
Proof.
  cbn [signature]. intros H s Hs. destruct (omap signature ss) as [l|] eqn:E; [|contradiction]. clear H. revert l E. induction ss as [|a ss IH]; intros l E; [destruct Hs|].
  cbn [omap] in E. destruct (signature a) as [g|] eqn:Ea; [|discriminate]. cbn [obind] in E. destruct (omap signature ss) as [l'|]; [|discriminate]. destruct Hs as [<-|Hs]; [congruence|]. exact (IH Hs l' eq_refl).
Qed.

Lemma planner_signature ss f p : pl_for_each (plan ss) f = Some p -> signature (Union ss) <> None.
Proof. unfold pl_for_each, plan. cbn [pl_endings pl_trav]. change (tr_struct (traverser ss)) with (Union ss). destruct (signature (Union ss)); [discriminate|]. intros H. discriminate H. Qed.

Section Runs.
  Variables (f : bytes -> list bytes -> bytes) (ins : list bag) (out : bag) (o : proto) (all calls : list state).
  Notation ss := (map bg_struct (ins ++ [out])).
  Notation t := (order (traverser ss) o).
  Hypothesis Hov : plans ss o.
  Hypothesis Hw : uswf (top_struct t) = true.
  Hypothesis Hall : for_each t [] = Done all.
  Hypothesis Hr : runs (ins ++ [out]) o calls.

  Theorem runs_loop : exists sched, Permutation all sched /\ loop f ins out calls = loop f ins out sched.
  Proof using Hov Hw Hall Hr.
    destruct Hr as [H|H].
    - rewrite (planned_same ss o all Hov Hw Hall calls H). exists all. split; [apply Permutation_refl|reflexivity].
    - destruct (parallel_same ss o all Hov Hw Hall calls H) as (sched & Hp & Hf). exists sched. split; [exact Hp|]. symmetry.
      destruct H as [g p secs q n ps evss sched' Hp' _ _ _ _]. pose proof (union_signature _ (planner_signature _ _ _ Hp')) as Hsig.
      apply loop_same; [|exact Hf|].
      + intros b Hb. apply Hsig. apply in_map, in_or_app. left. exact Hb.
      + apply Hsig. apply in_map, in_or_app. right. left. reflexivity.
  Qed.
End Runs.

Theorem plan_reduction f ins out o lo lr all calls : any_order f -> loops rearranges (map bg_struct (ins ++ [out])) o (lo ++ lr) -> plans (map bg_struct (ins ++ [out])) o ->
  good_bags ins (lo ++ lr) -> good_bag out lo -> nobcast (bg_struct out) = true -> for_each (order (traverser (map bg_struct (ins ++ [out]))) o) [] = Done all ->
  runs (ins ++ [out]) o calls ->
  loop f ins out calls <> Undefined /\
  forall out', loop f ins out calls = Done out' ->
  forall vals x v, (forall y, in_box (lo ++ lr) y -> have_values ins y (vals y)) -> in_box lo x -> has_value out x v ->
  has_value out' x (fold_left (fun v js => f v (vals (along lr js x))) (all_indices lr) v).
Proof.
  intros Hf Hl Hp Hi Ho Hn Ha Hr. destruct (runs_loop f ins out o all calls Hp (proj1 (proj2 Hl)) Ha Hr) as (sched & P & E). rewrite E. split.
  - apply (kernel_defined f ins out (map bg_struct (ins ++ [out])) o (lo ++ lr) lo all sched (loops_documented _ _ _ Hl) Hi Ho); [|exact Ha|exact P].
    intros q n Hq. exists n. split; [apply in_or_app; left; exact Hq|apply Z.le_refl].
  - intros out' H7. exact (kernel_reduce f ins out out' (map bg_struct (ins ++ [out])) o lo lr all sched Hl Hi Ho Hn Hf Ha P H7).
Qed.

Theorem plan_pointwise f ins out out' o lens all calls : loops rearranges (map bg_struct (ins ++ [out])) o lens -> plans (map bg_struct (ins ++ [out])) o ->
  good_bags ins lens -> good_bag out lens -> nobcast (bg_struct out) = true -> for_each (order (traverser (map bg_struct (ins ++ [out]))) o) [] = Done all ->
  runs (ins ++ [out]) o calls -> loop f ins out calls = Done out' ->
  forall vals x v, (forall y, in_box lens y -> have_values ins y (vals y)) -> in_box lens x -> has_value out x v -> has_value out' x (f v (vals x)).
Proof.
  intros Hl Hp Hi Ho Hn Ha Hr E'. destruct (runs_loop f ins out o all calls Hp (proj1 (proj2 Hl)) Ha Hr) as (sched & P & E). rewrite E in E'.
  exact (kernel_pointwise f ins out out' (map bg_struct (ins ++ [out])) o lens all sched Hl Hi Ho Hn Ha P E').
Qed.

Theorem plan_matmul w a b c c' o i j k ni nj nk A B C all calls : loops rearranges (map bg_struct [a; b; c]) o [(i, ni); (j, nj); (k, nk)] -> plans (map bg_struct [a; b; c]) o ->
  good_bag a [(i, ni); (k, nk)] -> good_bag b [(k, nk); (j, nj)] -> good_bag c [(i, ni); (j, nj)] -> nobcast (bg_struct c) = true ->
  for_each (order (traverser (map bg_struct [a; b; c])) o) [] = Done all -> runs [a; b; c] o calls -> loop (add_product w) [a; b] c calls = Done c' ->
  (forall y z, 0 <= y < ni -> 0 <= z < nk -> has_value a (at_ij i k y z) (uint w (A y z))) ->
  (forall y z, 0 <= y < nk -> 0 <= z < nj -> has_value b (at_ij k j y z) (uint w (B y z))) ->
  (forall y z, 0 <= y < ni -> 0 <= z < nj -> has_value c (at_ij i j y z) (uint w (C y z))) ->
  forall y z, 0 <= y < ni -> 0 <= z < nj -> has_value c' (at_ij i j y z) (uint w (C y z + sum nk (fun l => A y l * B l z))).
Proof.
  intros Hl Hp Ga Gb Gc Hn Ha Hr E' Va Vb Vc y z Hy Hz. destruct (runs_loop (add_product w) [a; b] c o all calls Hp (proj1 (proj2 Hl)) Ha Hr) as (sched & P & E). rewrite E in E'.
  set (ss := map bg_struct [a; b; c]) in *. rewrite <- (matmul_fold w a b ss o i j k ni nj nk A B Hl Ga Gb Va Vb y z).
  exact (kernel_reduce (add_product w) [a; b] c c' ss o [(i, ni); (j, nj)] [(k, nk)] all sched Hl (matmul_bags w a b ss o i j k ni nj nk A B C Hl Ga Gb Va Vb) Gc Hn (add_product_any w) Ha P E' (matmul_vals w i j k A B)
    (at_ij i j y z) (uint w (C y z)) (matmul_have w a b ss o i j k ni nj nk A B Hl Ga Gb Va Vb) (matmul_box w a b ss o i j k ni nj nk A B Hl Ga Gb Va Vb y z Hy Hz) (Vc y z Hy Hz)).
Qed.
