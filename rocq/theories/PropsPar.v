(** * C47: parallel loops give the result of the sequential loop *)

From Verif Require Import ParThms Check PropsLayout PropsRange PropsRace.
From Verif Require Import Spec SpecPar SpecRace.

(** Calls that read and write one element each, all different, may be given to any threads, which may take
    turns at every single read and write: the result is that of the calls one after another. *)
Theorem C47_elements : forall b body l ths result,
  sound_struct (bg_struct b) -> enough_data b -> nobcast (bg_struct b) = true -> Forall (element (bg_struct b)) l ->
  ForallOrdPairs (fun st st' => ~ same_element (bg_struct b) st st') l ->
  (forall st, In st l -> touches_only (fun u => element (bg_struct b) u /\ same_element (bg_struct b) st u) (body st)) ->
  Permutation (concat ths) l -> run_all (map body l) b = Done result -> always_ends_in (map (map body) ths) b result.
Proof. exact elements_deterministic. Qed.
Print Assumptions C47_elements.

(** In particular the calls of a traversal of the structure of the bag. *)
Theorem C47_for_each : forall b body l ths result,
  sound_struct (bg_struct b) -> enough_data b -> nobcast (bg_struct b) = true -> distinct_dims (bg_struct b) ->
  for_each (traverser [bg_struct b]) [] = Done l ->
  (forall st, In st l -> touches_only (fun u => element (bg_struct b) u /\ same_element (bg_struct b) st u) (body st)) ->
  Permutation (concat ths) l -> run_all (map body l) b = Done result -> always_ends_in (map (map body) ths) b result.
Proof. exact for_each_deterministic. Qed.
Print Assumptions C47_for_each.

(** The pieces of a split range may be given to any threads, if the body accesses only output elements with
    the index it was called with in the outermost dimension (see C45 for the other conditions). *)
Theorem C47_rows : forall ss p b body r tr works ths l result, let t := order (traverser ss) p in
  distinct_dims (top_struct t) -> range_of t = Done r -> order_keeps (rg_dim r) p = true -> shares t (bg_struct b) = Some true ->
  sound_struct (bg_struct b) -> enough_data b -> nobcast (bg_struct b) = true ->
  Forall2 (fun piece w => rg_for_each piece = Done w) (pieces tr r) works ->
  (forall w st, In w works -> In st w -> touches_only (fun u => element (bg_struct b) u /\ get (Idx (rg_dim r)) u = get (Idx (rg_dim r)) st) (body st)) ->
  (forall st st', same_get st st' -> body st = body st') -> Permutation (concat ths) works ->
  for_each t [] = Done l -> run_all (map body l) b = Done result ->
  always_ends_in (map (map (fun w => in_turn (map body w))) ths) b result.
Proof. exact rows_deterministic. Qed.
Print Assumptions C47_rows.

(** Also if the order regroups the outermost dimension, as in C45. *)
Theorem C47_regrouped : forall ss p b body r tr works ths l result, let t := order (traverser ss) p in
  uswf (top_struct t) = true -> lenok (top_struct t) nolens -> over respected (tr_struct t) (top_struct t) nolens -> range_of t = Done r ->
  source (top_struct t) (rg_dim r) = Some (rg_dim r) -> shares t (bg_struct b) = Some true ->
  sound_struct (bg_struct b) -> enough_data b -> nobcast (bg_struct b) = true ->
  Forall2 (fun piece w => rg_for_each piece = Done w) (pieces tr r) works ->
  (forall w st, In w works -> In st w -> touches_only (fun u => element (bg_struct b) u /\ get (Idx (rg_dim r)) u = get (Idx (rg_dim r)) st) (body st)) ->
  (forall st st', same_get st st' -> body st = body st') -> Permutation (concat ths) works ->
  for_each t [] = Done l -> run_all (map body l) b = Done result ->
  always_ends_in (map (map (fun w => in_turn (map body w))) ths) b result.
Proof. exact regrouped_deterministic. Qed.
Print Assumptions C47_regrouped.

(** Making calls in turn is making them one after another. *)
Theorem C47_in_turn : forall ps b, run (in_turn ps) b = run_all ps b.
Proof. exact run_in_turn. Qed.
Print Assumptions C47_in_turn.

(** No execution goes on for ever. *)
Theorem C47_ends : forall ths b, Acc (fun c' c => step (fst c) (snd c) (fst c') (snd c')) (ths, b).
Proof. exact executions_end. Qed.
Print Assumptions C47_ends.

(** Counting in a vector indexed by column: read the counter, add one, write it back. *)
Definition incr (v : bytes) : bytes := match v with x :: r => (x + 1) mod 256 :: r | [] => [] end.
Definition count_body (st : state) : prog :=
  match get (Idx 2) st with
  | Some i => Load [(Idx 2, i)] (fun v => Store [(Idx 2, i)] (incr v) Stop)
  | None => Stop
  end.
Definition counters : bag := {| bg_struct := counts; bg_policy := Owned; bg_data := repeat 0 16 |}.

Lemma counts_sound : sound_struct counts.
Proof.
  split; [vm_compute; reflexivity|]. split; [apply lenokb_sound; vm_compute; reflexivity|]. split; [|rewrite W_eq; vm_compute; reflexivity].
  intros a. unfold counts, vec. cbn. tauto.
Qed.
Lemma counters_enough : enough_data counters.
Proof. exists (Dyn 16), 16. split; [vm_compute; reflexivity|]. split; [vm_compute; reflexivity|]. vm_compute. discriminate. Qed.

Lemma count_touches st : existsb (fun i => match get (Idx 2) st with Some (Dyn k) => k =? i | _ => false end) [0; 1; 2; 3] = true ->
  touches_only (fun u => element counts u /\ get (Idx 2) u = get (Idx 2) st) (count_body st).
Proof.
  intros H. apply existsb_exists in H. destruct H as (i & Hi & E). unfold count_body. destruct (get (Idx 2) st) as [[k|k|]|]; try discriminate. apply Z.eqb_eq in E. subst k.
  assert (Hel : element counts [(Idx 2, Dyn i)]).
  { split; [|intros d; reflexivity]. exists [(2, None)]. cbn [In] in Hi. destruct Hi as [<-|[<-|[<-|[<-|[]]]]]; apply names_element_check; vm_compute; reflexivity. }
  cbn [touches_only]. split; [split; [exact Hel|reflexivity]|]. intros v. split; [split; [exact Hel|reflexivity]|exact I].
Qed.

(** The columns of the 6 x 4 matrix in four pieces; the second thread takes two of them. *)
Definition par_tree : splits := Split (Split Keep Keep) (Split Keep Keep).
Definition par_works : list (list state) := map (fun x => done_ (rg_for_each x)) (pieces par_tree columns_range).
Definition par_ths : list (list (list state)) := [[nth 2 par_works []]; [nth 3 par_works []; nth 0 par_works []]; [nth 1 par_works []]].

Example C47_rows_ex : let b := counters in exists l,
  distinct_dims (top_struct columns) /\ range_of columns = Done columns_range /\ order_keeps 2 [LView (VHoist 2)] = true /\ shares columns counts = Some true /\
  sound_struct counts /\ enough_data b /\ nobcast counts = true /\
  Forall2 (fun piece w => rg_for_each piece = Done w) (pieces par_tree columns_range) par_works /\
  (forall w st, In w par_works -> In st w -> touches_only (fun u => element counts u /\ get (Idx 2) u = get (Idx 2) st) (count_body st)) /\
  (forall st st', same_get st st' -> count_body st = count_body st') /\ Permutation (concat par_ths) par_works /\ for_each columns [] = Done l /\
  run_all (map count_body l) b = Done {| bg_struct := counts; bg_policy := Owned; bg_data := [6; 0; 0; 0; 6; 0; 0; 0; 6; 0; 0; 0; 6; 0; 0; 0] |}.
Proof.
  exists (done_ (for_each columns [])). do 4 (split; [vm_compute; reflexivity|]). split; [exact counts_sound|]. split; [exact counters_enough|]. split; [vm_compute; reflexivity|].
  split; [repeat (constructor; [vm_compute; reflexivity|]); constructor|].
  split. { intros w st Hw Hst. apply count_touches.
    assert (Hall : forallb (forallb (fun st => existsb (fun i => match get (Idx 2) st with Some (Dyn k) => k =? i | _ => false end) [0; 1; 2; 3])) par_works = true) by (vm_compute; reflexivity).
    rewrite forallb_forall in Hall. specialize (Hall w Hw). rewrite forallb_forall in Hall. exact (Hall st Hst). }
  split. { intros st st' H. unfold count_body. rewrite (proj1 (H 2)). reflexivity. }
  split. { change (concat par_ths) with [nth 2 par_works []; nth 3 par_works []; nth 0 par_works []; nth 1 par_works []].
    change par_works with [nth 0 par_works []; nth 1 par_works []; nth 2 par_works []; nth 3 par_works []] at 5.
    exact (Permutation_app_comm [_; _] [_; _]). }
  split; vm_compute; reflexivity.
Qed.

(** The pairs of columns of C45, one pair for each thread. *)
Example C47_regrouped_ex : let b := counters in exists l,
  range_of pairs_t = Done pairs_range /\ sound_struct counts /\ enough_data b /\
  (forall w st, In w pairs_works -> In st w -> touches_only (fun u => element counts u /\ get (Idx 2) u = get (Idx 2) st) (count_body st)) /\
  (forall st st', same_get st st' -> count_body st = count_body st') /\
  Permutation (concat [[nth 1 pairs_works []]; [nth 0 pairs_works []]]) pairs_works /\ for_each pairs_t [] = Done l /\
  run_all (map count_body l) b = Done {| bg_struct := counts; bg_policy := Owned; bg_data := [6; 0; 0; 0; 6; 0; 0; 0; 6; 0; 0; 0; 6; 0; 0; 0] |}.
Proof.
  exists (done_ (for_each pairs_t [])). split; [vm_compute; reflexivity|]. split; [exact counts_sound|]. split; [exact counters_enough|].
  split. { intros w st Hw Hst. apply count_touches.
    assert (Hall : forallb (forallb (fun st => existsb (fun i => match get (Idx 2) st with Some (Dyn k) => k =? i | _ => false end) [0; 1; 2; 3])) pairs_works = true) by (vm_compute; reflexivity).
    rewrite forallb_forall in Hall. specialize (Hall w Hw). rewrite forallb_forall in Hall. exact (Hall st Hst). }
  split. { intros st st' H. unfold count_body. rewrite (proj1 (H 2)). reflexivity. }
  split. { change pairs_works with [nth 0 pairs_works []; nth 1 pairs_works []] at 3. apply perm_swap. }
  split; vm_compute; reflexivity.
Qed.

(** Doubling every element of the vector of counters. *)
Definition double_body (st : state) : prog := Load st (fun v => Store st (map (fun x => (2 * x) mod 256) v) Stop).
Example C47_for_each_ex : let l := [[(Idx 2, Dyn 0)]; [(Idx 2, Dyn 1)]; [(Idx 2, Dyn 2)]; [(Idx 2, Dyn 3)]] in
  sound_struct counts /\ enough_data counters /\ nobcast counts = true /\ distinct_dims counts /\ for_each (traverser [counts]) [] = Done l /\
  Forall (element counts) l /\ ForallOrdPairs (fun st st' => ~ same_element counts st st') l /\
  (forall st, In st l -> touches_only (fun u => element counts u /\ same_element counts st u) (double_body st)) /\ exists result, run_all (map double_body l) counters = Done result.
Proof.
  cbv zeta. set (l := [_; _; _; _]). assert (Hel : Forall (element counts) l).
  { unfold l. repeat constructor; try (exists [(2, None)]; apply names_element_check; vm_compute; reflexivity). }
  split; [exact counts_sound|]. split; [exact counters_enough|]. do 3 (split; [vm_compute; reflexivity|]). split; [exact Hel|].
  split. { unfold l. repeat constructor; intros [_ H]; vm_compute in H; discriminate. }
  split. { intros st Hin. rewrite Forall_forall in Hel. cbn [touches_only double_body]. repeat split; apply (Hel st Hin). }
  eexists. vm_compute. reflexivity.
Qed.

(** If the pieces are rows instead, the library itself says that the counters must not be shared; sharing
    them nevertheless, two threads can read a counter before either writes it, and an increment is lost. *)
Definition two_rows : struct := vec 1 (Dyn 2) (vec 2 (Dyn 1) (Scalar int4)).
Theorem C47_shared_refuted : exists ss b body r tr works l result ths' lost, let t := traverser ss in
  distinct_dims (top_struct t) /\ range_of t = Done r /\ shares t (bg_struct b) = Some false /\
  sound_struct (bg_struct b) /\ enough_data b /\ nobcast (bg_struct b) = true /\
  Forall2 (fun piece w => rg_for_each piece = Done w) (pieces tr r) works /\
  (forall w st, In w works -> In st w -> touches_only (fun u => element (bg_struct b) u /\ forall d, get (Idx d) u = if d =? 2 then get (Idx d) st else None) (body st)) /\
  for_each t [] = Done l /\ run_all (map body l) b = Done result /\
  steps (map (fun w => map body w) works) b ths' lost /\ finished ths' /\ lost <> result.
Proof.
  exists [two_rows], counters, count_body, {| rg_dim := 1; rg_trav := traverser [two_rows]; rg_begin := 0; rg_end := 2 |}, (Split Keep Keep),
    [[[(Idx 2, Dyn 0); (Idx 1, Dyn 0)]]; [[(Idx 2, Dyn 0); (Idx 1, Dyn 1)]]], [[(Idx 2, Dyn 0); (Idx 1, Dyn 0)]; [(Idx 2, Dyn 0); (Idx 1, Dyn 1)]],
    {| bg_struct := counts; bg_policy := Owned; bg_data := 2 :: repeat 0 15 |}, [[]; []], {| bg_struct := counts; bg_policy := Owned; bg_data := 1 :: repeat 0 15 |}.
  cbv zeta. do 3 (split; [vm_compute; reflexivity|]). split; [exact counts_sound|]. split; [exact counters_enough|]. split; [vm_compute; reflexivity|].
  split; [repeat (constructor; [vm_compute; reflexivity|]); constructor|].
  split.
  { assert (Hel : element counts [(Idx 2, Dyn 0)]) by (split; [exists [(2, None)]; apply names_element_check; vm_compute; reflexivity|intros d; reflexivity]).
    intros w st Hw Hst. destruct Hw as [<-|[<-|[]]]; destruct Hst as [<-|[]]; cbn [touches_only count_body get];
      (split; [split; [exact Hel|]|intros v; split; [split; [exact Hel|]|exact I]]); intros d; cbn [get tag_eqb]; unfold tag_eqb; destruct (d =? 2); reflexivity. }
  do 2 (split; [vm_compute; reflexivity|]). split; [|split; [repeat constructor|discriminate]].
  set (c := Load [(Idx 2, Dyn 0)] (fun v => Store [(Idx 2, Dyn 0)] (incr v) Stop)). set (s := Store [(Idx 2, Dyn 0)] [1; 0; 0; 0] Stop).
  change (map (fun w => map count_body w) _) with [[c]; [c]].
  set (lost := {| bg_struct := counts; bg_policy := Owned; bg_data := 1 :: repeat 0 15 |}).
  assert (Hl : acts c counters s counters) by (apply (acts_load counters [(Idx 2, Dyn 0)] (fun v => Store [(Idx 2, Dyn 0)] (incr v) Stop) [0; 0; 0; 0]); vm_compute; reflexivity).
  assert (H1 : acts s counters Stop lost) by (apply acts_store; vm_compute; reflexivity).
  assert (H2 : acts s lost Stop lost) by (apply acts_store; vm_compute; reflexivity).
  eapply steps_more; [|exact (step_next [[]] [] [] lost)]. eapply steps_more; [|exact (step_next [] [[Stop]] [] lost)].
  eapply steps_more; [|exact (step_acts [[Stop]] [] s Stop [] lost lost H2)]. eapply steps_more; [|exact (step_acts [] [[s]] s Stop [] counters lost H1)].
  eapply steps_more; [|exact (step_acts [[s]] [] c s [] counters counters Hl)]. eapply steps_more; [|exact (step_acts [] [[c]] c s [] counters counters Hl)].
  apply steps_refl.
Qed.
Print Assumptions C47_shared_refuted.
