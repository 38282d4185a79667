(** * Parallel loops over different elements, and over parts of a range *)

From Verif Require Import BagFacts RaceOrder Check ParFacts RangeThms.
From Verif Require Import Spec SpecRace.

(** ** Pairs of elements of a list *)

Lemma pairs_nth {A} (R : A -> A -> Prop) l : (forall i j x y, (i < j)%nat -> nth_error l i = Some x -> nth_error l j = Some y -> R x y) -> ForallOrdPairs R l.
Proof.
  induction l as [|x l IH]; intros H; constructor.
  - apply Forall_forall. intros y Hy. apply In_nth_error in Hy. destruct Hy as [j Hj]. apply (H 0%nat (S j)); [lia|reflexivity|exact Hj].
  - apply IH. intros i j y z Hij Hi Hj. apply (H (S i) (S j)); [lia|exact Hi|exact Hj].
Qed.

Lemma pairs_map {A B} (R : B -> B -> Prop) (f : A -> B) l : ForallOrdPairs (fun x y => R (f x) (f y)) l -> ForallOrdPairs R (map f l).
Proof. induction 1 as [|x l F H IH]; cbn [map]; constructor; [|exact IH]. apply Forall_map. exact F. Qed.

Lemma pairs_impl {A} (R S : A -> A -> Prop) l : (forall x y, In x l -> In y l -> R x y -> S x y) -> ForallOrdPairs R l -> ForallOrdPairs S l.
Proof.
  intros H F. induction F as [|x l F G IH]; constructor.
  - rewrite Forall_forall in *. intros y Hy. apply H; [left; reflexivity|right; exact Hy|apply F; exact Hy].
  - apply IH. intros y z Hy Hz. apply H; right; assumption.
Qed.

Lemma pairs_not_eq s l : NoDup (map (index_list s) l) -> ForallOrdPairs (fun st st' => ~ same_element s st st') l.
Proof.
  induction l as [|x l IH]; cbn [map]; intros N; constructor; inversion N as [|? ? Hx N']; subst; [|apply IH; exact N'].
  apply Forall_forall. intros y Hy [_ E]. apply Hx. rewrite E. apply in_map. exact Hy.
Qed.

(** ** The bytes of a set of elements *)

Definition bytes_of (b : bag) (P : state -> Prop) : locs :=
  fun x => exists u o n, P u /\ bag_ref b u = Done (o, n) /\ (Z.to_nat o <= x < Z.to_nat o + Z.to_nat n)%nat.

Lemma ref_facts b st o n : sound_struct (bg_struct b) -> enough_data b -> element (bg_struct b) st -> bag_ref b st = Done (o, n) ->
  0 <= o /\ 0 <= n /\ o + n <= Z.of_nat (length (bg_data b)) /\
  exists c v, scalar_t (bg_struct b) st = Some c /\ offset (bg_struct b) st = Some v /\ vz v = Some o /\ ct_size c = n.
Proof.
  intros Hs He Hel Er. destruct (ref_cases b st Hs He Hel) as [E|(c & v & x & Ec & Ev & Ex & E & H0 & Hc & Hin)]; [congruence|].
  rewrite Er in E. injection E as -> ->. repeat (split; [assumption|]). exists c, v. auto.
Qed.

Lemma within_bytes_of b (P : state -> Prop) p : sound_struct (bg_struct b) -> enough_data b -> (forall u, P u -> element (bg_struct b) u) ->
  touches_only P p -> within (bytes_of b P) b p.
Proof.
  intros Hs He HP. apply touches_mono. intros st Hst o n Er. destruct (ref_facts b st o n Hs He (HP st Hst) Er) as (H0 & Hn & Hle & _).
  repeat (split; [assumption|]). intros x Hx. exists st, o, n. auto.
Qed.

Lemma elements_apart b st st' o n o' n' : sound_struct (bg_struct b) -> enough_data b -> nobcast (bg_struct b) = true -> element (bg_struct b) st -> element (bg_struct b) st' ->
  bag_ref b st = Done (o, n) -> bag_ref b st' = Done (o', n') -> ~ same_element (bg_struct b) st st' -> o + n <= o' \/ o' + n' <= o.
Proof.
  intros Hs He Hnb Hel Hel' Er Er' Hne.
  destruct (ref_facts b st o n Hs He Hel Er) as (_ & _ & _ & c & v & Ec & Ev & Ex & En). destruct (ref_facts b st' o' n' Hs He Hel' Er') as (_ & _ & _ & c' & v' & Ec' & Ev' & Ex' & En').
  destruct (element_used _ _ Hs Hel) as [U F]. destruct (element_used _ _ Hs Hel') as [U' F']. destruct Hel as [[p Hp] Hl]. destruct Hel' as [[p' Hp'] Hl'].
  assert (Hsl : same_lengths st st') by (intros d; unfold same_lengths; rewrite Hl, Hl'; reflexivity).
  destruct (access_no_alias _ st st' p p' v v' Hnb Hsl U U' F Hp Hp' Ev Ev') as [[E1 E2]|(c1 & c2 & x1 & x2 & A1 & A2 & B1 & B2 & C)].
  - exfalso. apply Hne. apply (same_elements _ _ _ p p' Hp Hp' E1 E2).
  - assert (c1 = c) by congruence. assert (c2 = c') by congruence. assert (x1 = o) by congruence. assert (x2 = o') by congruence. subst. exact C.
Qed.

(** ** Different elements *)

Theorem elements_deterministic b body l ths result :
  sound_struct (bg_struct b) -> enough_data b -> nobcast (bg_struct b) = true -> Forall (element (bg_struct b)) l ->
  ForallOrdPairs (fun st st' => ~ same_element (bg_struct b) st st') l ->
  (forall st, In st l -> touches_only (fun u => element (bg_struct b) u /\ same_element (bg_struct b) st u) (body st)) ->
  Permutation (concat ths) l -> run_all (map body l) b = Done result -> always_ends_in (map (map body) ths) b result.
Proof.
  intros Hs He Hnb Hel Hne Ht P Hrun.
  set (f := fun st => (body st, bytes_of b (fun u => element (bg_struct b) u /\ same_element (bg_struct b) st u))).
  replace (map (map body) ths) with (map (map fst) (map (map f) ths)) by (rewrite map_map; apply map_ext; intros x; rewrite map_map; apply map_ext; reflexivity).
  apply (threads_deterministic b (map f l)).
  - apply pairs_map. revert Hne. apply pairs_impl. intros st st' Hin Hin' Hne x (u & o & n & [Hu Su] & Er & Hx) (u' & o' & n' & [Hu' Su'] & Er' & Hx').
    assert (Hnn : ~ same_element (bg_struct b) u u').
    { intros [S1 S2]. apply Hne. destruct Su as [A1 A2], Su' as [B1 B2]. split; congruence. }
    destruct (ref_facts b u o n Hs He Hu Er) as (H0 & Hn & _). destruct (ref_facts b u' o' n' Hs He Hu' Er') as (H0' & Hn' & _).
    destruct (elements_apart b u u' o n o' n' Hs He Hnb Hu Hu' Er Er' Hnn); lia.
  - intros x Hx. apply in_map_iff in Hx. destruct Hx as (st & <- & Hin). cbn [fst snd f]. apply within_bytes_of; [assumption|assumption|tauto|]. apply Ht. exact Hin.
  - rewrite <- concat_map. apply Permutation_map. exact P.
  - rewrite map_map. exact Hrun.
Qed.

Theorem for_each_deterministic b body l ths result :
  sound_struct (bg_struct b) -> enough_data b -> nobcast (bg_struct b) = true -> distinct_dims (bg_struct b) ->
  for_each (traverser [bg_struct b]) [] = Done l ->
  (forall st, In st l -> touches_only (fun u => element (bg_struct b) u /\ same_element (bg_struct b) st u) (body st)) ->
  Permutation (concat ths) l -> run_all (map body l) b = Done result -> always_ends_in (map (map body) ths) b result.
Proof.
  intros Hs He Hnb Hd Hl. destruct (visited_elements _ _ Hd (proj1 (proj2 Hs)) Hl) as [En Hel].
  apply elements_deterministic; try assumption; [apply Forall_forall; exact Hel|]. apply pairs_not_eq. apply TravDef.enumerates_nodup. exact En.
Qed.

(** ** Parts of a range *)

Lemma run_followed p : forall q b, run (followed_by p q) b = out_bind (run p b) (run q).
Proof.
  induction p as [|st k IH|st v k IH]; intros q b; cbn [followed_by run out_bind]; [reflexivity| |].
  - destruct (bag_read b st); cbn [out_bind]; [reflexivity..|apply IH].
  - destruct (bag_write b st v); cbn [out_bind]; [reflexivity..|apply IH].
Qed.

Lemma run_in_turn ps : forall b, run (in_turn ps) b = run_all ps b.
Proof.
  induction ps as [|p ps IH]; intros b; [reflexivity|]. cbn [in_turn fold_right run_all]. rewrite run_followed.
  destruct (run p b); cbn [out_bind]; [reflexivity..|apply IH].
Qed.

Lemma run_all_app ps qs : forall b, run_all (ps ++ qs) b = out_bind (run_all ps b) (run_all qs).
Proof. induction ps as [|p ps IH]; intros b; cbn [app run_all]; [reflexivity|]. destruct (run p b); cbn [out_bind]; [reflexivity..|apply IH]. Qed.

Lemma run_all_in_turn pss : forall b, run_all (map in_turn pss) b = run_all (concat pss) b.
Proof.
  induction pss as [|ps pss IH]; intros b; cbn [map concat run_all]; [reflexivity|]. rewrite run_in_turn, run_all_app.
  destruct (run_all ps b); cbn [out_bind]; [reflexivity..|apply IH].
Qed.

Lemma touches_followed P p q : touches_only P p -> touches_only P q -> touches_only P (followed_by p q).
Proof. induction p as [|st k IH|st v k IH]; cbn [followed_by touches_only]; intros Hp Hq; [exact Hq|destruct Hp; split; auto|destruct Hp; split; auto]. Qed.

Lemma touches_in_turn P ps : Forall (touches_only P) ps -> touches_only P (in_turn ps).
Proof. induction 1 as [|p ps H F IH]; cbn [in_turn fold_right]; [exact I|]. apply touches_followed; assumption. Qed.

Lemma rows_core ss p b body r tr works ths l result : let t := order (traverser ss) p in
  distinct_dims (top_struct t) -> range_of t = Done r -> 
  (forall i j w1 w2 st1 st2 v1 v2 x1 x2, nth_error works i = Some w1 -> nth_error works j = Some w2 -> i <> j -> In st1 w1 -> In st2 w2 ->
     get (Idx (rg_dim r)) st1 = Some v1 -> get (Idx (rg_dim r)) st2 = Some v2 -> vz v1 = Some x1 -> vz v2 = Some x2 -> x1 <> x2) ->
  shares t (bg_struct b) = Some true ->
  sound_struct (bg_struct b) -> enough_data b -> nobcast (bg_struct b) = true ->
  Forall2 (fun piece w => rg_for_each piece = Done w) (pieces tr r) works ->
  (forall w st, In w works -> In st w -> touches_only (fun u => element (bg_struct b) u /\ get (Idx (rg_dim r)) u = get (Idx (rg_dim r)) st) (body st)) ->
  (forall st st', same_get st st' -> body st = body st') -> Permutation (concat ths) works ->
  for_each t [] = Done l -> run_all (map body l) b = Done result ->
  always_ends_in (map (map (fun w => in_turn (map body w))) ths) b result.
Proof.
  intros t Hd Hr Hk Hsh Hs He Hnb Hw Ht Hsame P Hl Hrun.
  set (L := fun w : list state => bytes_of b (fun u => element (bg_struct b) u /\ exists st, In st w /\ get (Idx (rg_dim r)) u = get (Idx (rg_dim r)) st)).
  set (f := fun w => (in_turn (map body w), L w)).
  replace (map (map (fun w => in_turn (map body w))) ths) with (map (map fst) (map (map f) ths)) by (rewrite map_map; apply map_ext; intros x; rewrite map_map; apply map_ext; reflexivity).
  apply (threads_deterministic b (map f works)).
  - apply pairs_map. apply pairs_nth. intros i j w1 w2 Hij Hi Hj x (u1 & o1 & n1 & [Hu1 (st1 & I1 & G1)] & E1 & X1) (u2 & o2 & n2 & [Hu2 (st2 & I2 & G2)] & E2 & X2).
    destruct (ref_facts b u1 o1 n1 Hs He Hu1 E1) as (H1 & H1' & _ & c1 & v1 & Ec1 & Ev1 & Ex1 & En1). destruct (ref_facts b u2 o2 n2 Hs He Hu2 E2) as (H2 & H2' & _ & c2 & v2 & Ec2 & Ev2 & Ex2 & En2).
    destruct (element_used _ _ Hs Hu1) as [U1 F1]. destruct (element_used _ _ Hs Hu2) as [U2 F2]. destruct Hu1 as [[p1 N1] Hl1]. destruct Hu2 as [[p2 N2] Hl2].
    destruct (race_core t (bg_struct b) r st1 st2 u1 u2 p1 p2 v1 v2) as (o1' & o2' & c1' & c2' & x1 & x2 & A1 & A2 & B1 & B2 & C1 & C2 & D); try assumption; [intros y1 y2 z1 z2; apply (Hk i j w1 w2 st1 st2); try assumption; lia|intros d; rewrite Hl1, Hl2; reflexivity|].
    assert (o1' = v1) by congruence. assert (o2' = v2) by congruence. subst o1' o2'. assert (x1 = o1) by congruence. assert (x2 = o2) by congruence. assert (c1' = c1) by congruence. assert (c2' = c2) by congruence. subst. lia.
  - intros x Hx. apply in_map_iff in Hx. destruct Hx as (w & <- & Hin). cbn [fst snd f]. apply within_bytes_of; [assumption|assumption|tauto|].
    apply touches_in_turn. apply Forall_map. apply Forall_forall. intros st Hst. eapply touches_mono; [|apply (Ht w st Hin Hst)]. cbv beta. intros u [A B]. split; [exact A|]. exists st. auto.
  - rewrite <- concat_map. apply Permutation_map. exact P.
  - rewrite map_map. cbn [fst f].
    assert (E : run_all (map (fun w => in_turn (map body w)) works) b = run_all (map body (concat works)) b) by (rewrite concat_map, <- run_all_in_turn, map_map; reflexivity).
    rewrite E. rewrite <- Hrun. f_equal.
    destruct (range_inv t r Hd Hr) as (al & sgr & len & n & _ & _ & _ & _ & Hn0 & Er0).
    assert (Er : rg_set r 0 (rg_end r) = r) by (rewrite Er0; reflexivity).
    assert (Hb : 0 <= 0 <= rg_end r) by (rewrite Er0; cbn [rg_end]; lia).
    destruct (split_calls ss p r tr 0 (rg_end r) l Hd Hr Hl) as (lm & _ & (ls & F & Fl) & Hlm); [lia|lia|]. specialize (Hlm eq_refl eq_refl). rewrite Er in F.
    assert (El : ls = works).
    { clear - F Hw. revert ls F. induction Hw as [|piece w ps ws H F2 IH]; intros ls F; inversion F as [|? ? ? ? A B]; subst; [reflexivity|]. f_equal; [|apply IH; assumption].
      unfold rg_for_each in H. congruence. }
    subst ls. assert (Hm : forall l l', Forall2 same_get l l' -> map body l' = map body l) by (clear - Hsame; induction 1 as [|x y l l' Hx F IH]; cbn [map]; [reflexivity|f_equal; [symmetry; apply Hsame; exact Hx|exact IH]]).
    rewrite (Hm _ _ Fl). apply Hm. exact Hlm.
Qed.

Theorem rows_deterministic ss p b body r tr works ths l result : let t := order (traverser ss) p in
  distinct_dims (top_struct t) -> range_of t = Done r -> order_keeps (rg_dim r) p = true -> shares t (bg_struct b) = Some true ->
  sound_struct (bg_struct b) -> enough_data b -> nobcast (bg_struct b) = true ->
  Forall2 (fun piece w => rg_for_each piece = Done w) (pieces tr r) works ->
  (forall w st, In w works -> In st w -> touches_only (fun u => element (bg_struct b) u /\ get (Idx (rg_dim r)) u = get (Idx (rg_dim r)) st) (body st)) ->
  (forall st st', same_get st st' -> body st = body st') -> Permutation (concat ths) works ->
  for_each t [] = Done l -> run_all (map body l) b = Done result ->
  always_ends_in (map (map (fun w => in_turn (map body w))) ths) b result.
Proof.
  intros t Hd Hr Hk Hsh Hs He Hnb Hw. apply (rows_core ss p b body r tr works ths l result Hd Hr); try assumption.
  intros i j w1 w2 st1 st2 v1 v2 x1 x2 Hi Hj Hij I1 I2. exact (pieces_differ ss p r tr works i j w1 w2 st1 st2 v1 v2 x1 x2 Hd Hr Hk Hw Hi Hj Hij I1 I2).
Qed.

Theorem regrouped_deterministic ss p b body r tr works ths l result : let t := order (traverser ss) p in
  uswf (top_struct t) = true -> lenok (top_struct t) nolens -> over respected (tr_struct t) (top_struct t) nolens -> range_of t = Done r ->
  source (top_struct t) (rg_dim r) = Some (rg_dim r) -> shares t (bg_struct b) = Some true ->
  sound_struct (bg_struct b) -> enough_data b -> nobcast (bg_struct b) = true ->
  Forall2 (fun piece w => rg_for_each piece = Done w) (pieces tr r) works ->
  (forall w st, In w works -> In st w -> touches_only (fun u => element (bg_struct b) u /\ get (Idx (rg_dim r)) u = get (Idx (rg_dim r)) st) (body st)) ->
  (forall st st', same_get st st' -> body st = body st') -> Permutation (concat ths) works ->
  for_each t [] = Done l -> run_all (map body l) b = Done result ->
  always_ends_in (map (map (fun w => in_turn (map body w))) ths) b result.
Proof.
  intros t Hwf Hlk Ho Hr Hk Hsh Hs He Hnb Hw. apply (rows_core ss p b body r tr works ths l result); try assumption.
  - apply uswf_distinct; [exact Hwf|]. intros E. unfold t, range_of, top_dim in Hr. unfold t in Hr. rewrite E in Hr. discriminate.
  - intros i j w1 w2 st1 st2 v1 v2 x1 x2 Hi Hj Hij I1 I2. exact (pieces_differ' ss p r tr works i j w1 w2 st1 st2 v1 v2 x1 x2 Hwf Hlk Ho Hr Hk Hw Hi Hj Hij I1 I2).
Qed.

(** ** Every execution ends *)

Inductive tstep : list prog -> list prog -> Prop :=
| tstep_next r : tstep r (Stop :: r)
| tstep_load st k v r : tstep (k v :: r) (Load st k :: r)
| tstep_store st v k r : tstep (k :: r) (Store st v k :: r).

Lemma tstep_wf th : Acc tstep th.
Proof.
  induction th as [|p r IH]; [constructor; intros y H; inversion H|].
  induction p as [|st k IHk|st v k IHk]; constructor; intros y H; inversion H; subst; auto.
Qed.

Inductive thstep : list (list prog) -> list (list prog) -> Prop :=
| thstep_here t t' r : tstep t' t -> thstep (t' :: r) (t :: r)
| thstep_later t r r' : thstep r' r -> thstep (t :: r') (t :: r).

Lemma thstep_wf ths : Acc thstep ths.
Proof.
  induction ths as [|t r IH]; [constructor; intros y H; inversion H|]. revert t.
  induction IH as [r Hr IHr]. intros t. induction (tstep_wf t) as [t Ht IHt]. constructor. intros y H. inversion H; subst; [apply IHt; assumption|apply IHr; assumption].
Qed.

Lemma step_thstep ths b ths' b' : step ths b ths' b' -> thstep ths' ths.
Proof.
  assert (Hmid : forall t1 t t' t2, tstep t' t -> thstep (t1 ++ t' :: t2) (t1 ++ t :: t2)).
  { intros t1 t t' t2 H. induction t1 as [|x t1 IH]; cbn [app]; [apply thstep_here; exact H|apply thstep_later; exact IH]. }
  intros H. inversion H as [? ? r ?|? ? p q r ? ? Ha]; subst; apply Hmid; [constructor|]. inversion Ha; subst; constructor.
Qed.

Theorem executions_end ths b : Acc (fun c' c => step (fst c) (snd c) (fst c') (snd c')) (ths, b).
Proof.
  revert b. induction (thstep_wf ths) as [ths _ IH]. intros b. constructor. intros [ths' b'] H. cbn [fst snd] in H. apply IH. eapply step_thstep. exact H.
Qed.
