(** * C64: stripes as private copies *)

From Verif Require Import Check PropsLayout PropsOrder PropsStriped PropsKernel StripedKernelThms.
From Verif Require Import SpecKernel SpecStripedKernel.

(** Clearing the stripes, accumulating into them and adding them up gives, in every element, what accumulating into that element directly would give:
    whatever the memory contained, whichever threads and stripes the updates use, in every order of the clearing, the updates and the adding up. *)
Theorem C64_result : forall P f e p w l shm block fills us tid sts out, collects P f e -> striped_use p w l shm -> sp_num p <= block < W -> clears p l block fills ->
  (forall u, In u us -> fine_update p l u /\ P (up_value u)) -> visits l sts -> good_bag out l -> nobcast (bg_struct out) = true ->
  striped_kernel f e p fills us tid sts shm out <> Undefined /\
  forall out', striped_kernel f e p fills us tid sts shm out = Done out' ->
    bg_struct out' = bg_struct out /\ forall x v, in_box l x -> P v -> has_value out x v -> has_value out' x (fold_left f (given_to l x us) v).
Proof.
  intros P f e p w l shm block fills us tid sts out Hf Hu Hb (ss & o & r & calls & cs & H1 & H2 & H3 & H4 & H5 & H6 & H7) Hus (ss' & o' & calls' & H8 & H9 & H10) Hout Hnb.
  exact (striped_result P f e p w l shm ss o r block calls cs fills ss' o' calls' sts us tid out Hf Hu H1 H2 H3 H5 Hb H4 H6 H7 Hus H8 H9 H10 Hout Hnb).
Qed.
Print Assumptions C64_result.

(** A histogram: each element gets its old value and the sum of the numbers given to it, modulo 2^(8 n). *)
Theorem C64_sum : forall n z p w l shm block fills us tid sts out out', striped_use p w l shm -> sp_num p <= block < W -> clears p l block fills ->
  (forall u, In u us -> fine_update p l u /\ up_value u = uint n (z u)) -> visits l sts -> good_bag out l -> nobcast (bg_struct out) = true ->
  striped_kernel (add_uint n) (uint n 0) p fills us tid sts shm out = Done out' ->
  forall x c, in_box l x -> has_value out x (uint n c) ->
  has_value out' x (uint n (c + fold_right Z.add 0 (map z (filter (fun u => agrees (map fst l) x (asg_of (up_state u))) us)))).
Proof.
  intros n z p w l shm block fills us tid sts out out' Hu Hb Hcl Hus Hv Hout Hnb E x c Hx Hval.
  assert (Hus' : forall u, In u us -> fine_update p l u /\ is_uint n (up_value u)) by (intros u Hin; destruct (Hus u Hin) as [A B]; split; [exact A|eexists; exact B]).
  destruct (C64_result _ _ _ p w l shm block fills us tid sts out (uint_collects n) Hu Hb Hcl Hus' Hv Hout Hnb) as [_ H]. destruct (H out' E) as [_ H']. specialize (H' x (uint n c) Hx (ex_intro _ c eq_refl) Hval).
  rewrite <- add_uints, map_map. unfold given_to in H'. erewrite map_ext_in in H'; [exact H'|]. intros u Hin. apply filter_In in Hin. apply (Hus u), Hin.
Qed.
Print Assumptions C64_sum.

(** Updates in different stripes do not interfere: their order does not matter, whatever they do with the values. *)
Theorem C64_private : forall f g p w l shm u v i j, striped_use p w l shm -> fine_update p l u -> fine_update p l v ->
  in_stripe_no p (up_thread u) (up_state u) i -> in_stripe_no p (up_thread v) (up_state v) j -> i <> j ->
  out_bind (striped_update f p shm u) (fun m => striped_update g p m v) = out_bind (striped_update g p shm v) (fun m => striped_update f p m u).
Proof. exact stripes_commute. Qed.
Print Assumptions C64_private.

(** ** Examples: a histogram of 2 x 3 counters in 10 stripes, in a block of 12 threads; memory that contains 7s, calls in reverse order *)
Definition sk_l : list (dim * Z) := [(1, 2); (2, 3)].
Definition sk_shm : bytes := repeat 7 256.
Definition sk_t : struct := vec 2 (Dyn 3) (vec 1 (Dyn 2) (Scalar int4)).
Definition sk_out : bag := kn_bag sk_t [100; 0; 0; 0; 0; 5].
Definition sk_up (tid i j z : Z) : update := {| up_thread := tid; up_state := [(Idx 1, Dyn i); (Idx 2, Dyn j)]; up_value := uint 4 z |}.
Definition sk_z (u : update) : Z := le_value (up_value u).
(** The last one names its stripe. *)
Definition sk_us : list update :=
  [sk_up 0 0 0 1; sk_up 11 1 2 2; sk_up 1 1 2 3; sk_up 5 0 0 4; sk_up 10 0 0 5; {| up_thread := 0; up_state := [(stripe_tag, Dyn 9); (Idx 2, Dyn 0); (Idx 1, Dyn 0)]; up_value := uint 4 6 |}].

Lemma sk_use : striped_use str_p str_w sk_l sk_shm.
Proof.
  split; [exact str_well|reflexivity|reflexivity|apply kn_cube; vm_compute; reflexivity|].
  exists (Dyn 256), 256. split; [vm_compute; reflexivity|]. split; [reflexivity|]. vm_compute. discriminate.
Qed.

Lemma sk_loops s : s = str_s \/ s = sk_t -> loops rearranges [s] [] sk_l.
Proof.
  intros Hs. assert (Hc : cube s sk_l) by (destruct Hs as [-> | ->]; apply kn_cube; vm_compute; reflexivity).
  split; [|split; [destruct Hs as [-> | ->]; vm_compute; reflexivity|split; [destruct Hs as [-> | ->]; apply lenokb_sound; vm_compute; reflexivity|split; [constructor; reflexivity|]]]].
  - split; [repeat constructor; cbn; intuition discriminate|]. split.
    + intros q [<-|[]]. exists sk_l. split; [exact Hc|intros e He; exact He].
    + intros q [<-|[<-|[]]]; exists s; (split; [cbn; tauto|destruct Hs as [-> | ->]; vm_compute; reflexivity]).
  - intros calls r E. revert r. apply completeb_sound.
    assert (H : out_map (forallb (completeb (Union [s]))) (for_each (order (traverser [s]) []) []) = Done true) by (destruct Hs as [-> | ->]; vm_compute; reflexivity). rewrite E in H. cbn [out_map] in H. congruence.
Qed.

Definition sk_fills (block : Z) : list (Z * state) := match fill_calls (order (traverser [str_s]) []) 1 str_p block with Done cs => rev cs | _ => [] end.

Lemma sk_clears block : block = 12 \/ block = 3 -> clears str_p sk_l block (sk_fills block).
Proof.
  intros Hb. exists [str_s], []. eexists. eexists. exists (rev (sk_fills block)). cbv zeta. split; [apply sk_loops; tauto|]. split; [vm_compute; reflexivity|]. split; [vm_compute; reflexivity|].
  split; [cbn [rg_end]; rewrite W_eq; destruct Hb; subst; vm_compute; discriminate|]. split; [vm_compute; reflexivity|].
  split; [|symmetry; apply Permutation_rev]. destruct Hb; subst; vm_compute; reflexivity.
Qed.

Definition sk_sts : list state := match for_each (order (traverser [sk_t]) []) [] with Done cs => rev cs | _ => [] end.
Lemma sk_visits : visits sk_l sk_sts.
Proof. exists [sk_t], [], (rev sk_sts). split; [apply sk_loops; tauto|]. split; [vm_compute; reflexivity|]. symmetry. apply Permutation_rev. Qed.

Lemma sk_good b : bg_struct b = sk_t -> length (bg_data b) = 24%nat -> good_bag b sk_l.
Proof.
  destruct b as [s pol dat]. cbn. intros -> Hlen.
  unfold good_bag, enough_data. cbn [bg_struct bg_policy Bag.bg_data].
  split; [apply kn_cube; vm_compute; reflexivity|]. split.
  - split; [vm_compute; reflexivity|]. split; [apply lenokb_sound; vm_compute; reflexivity|]. split; [intros a; cbn; tauto|rewrite W_eq; vm_compute; reflexivity].
  - exists (Dyn 24), 24. cbn. rewrite Hlen. repeat split; vm_compute; try reflexivity. discriminate.
Qed.

Lemma sk_fine u i j : up_state u = [(Idx 1, Dyn i); (Idx 2, Dyn j)] \/ up_state u = [(stripe_tag, Dyn 9); (Idx 2, Dyn j); (Idx 1, Dyn i)] -> 0 <= i < 2 -> 0 <= j < 3 -> fine_update str_p sk_l u.
Proof.
  intros Hu Hi Hj. split; [|split].
  - unfold in_stripe_no, stripe_of. destruct Hu as [-> | ->]; eexists; (split; [reflexivity|]); [|vm_compute; split; [discriminate|reflexivity]]. apply Z.mod_pos_bound. reflexivity.
  - pose proof (su_cube _ _ _ _ sk_use) as Hc. split.
    + intros d. destruct Hu as [-> | ->]; reflexivity.
    + intros d Hd. apply (proj1 (proj2 Hc)) in Hd. destruct Hd as [<-|[<-|[]]]; destruct Hu as [-> | ->]; eexists; split; reflexivity.
  - intros q n [E|[E|[]]]; injection E as <- <-; destruct Hu as [-> | ->]; cbn; (rewrite u64_small; [lia|rewrite W_eq; lia]).
Qed.

Lemma sk_updates u : In u sk_us -> fine_update str_p sk_l u /\ up_value u = uint 4 (sk_z u).
Proof.
  intros H. split; [|repeat (destruct H as [<-|H]; [vm_compute; reflexivity|]); destruct H].
  unfold sk_us in H. repeat (destruct H as [<-|H]; [eapply sk_fine; [first [left; reflexivity|right; reflexivity]|lia|lia]|]). destruct H.
Qed.

Example C64_ex : striped_use str_p str_w sk_l sk_shm /\ clears str_p sk_l 12 (sk_fills 12) /\ visits sk_l sk_sts /\ good_bag sk_out sk_l /\ nobcast (bg_struct sk_out) = true /\
  collects (is_uint 4) (add_uint 4) (uint 4 0) /\ (forall u, In u sk_us -> fine_update str_p sk_l u /\ up_value u = uint 4 (sk_z u)) /\
  length (sk_fills 12) = 60%nat /\
  exists out', striped_kernel (add_uint 4) (uint 4 0) str_p (sk_fills 12) sk_us 3 sk_sts sk_shm sk_out = Done out' /\
    bg_data out' = concat (map (uint 4) [116; 0; 0; 0; 0; 10]).
Proof.
  split; [exact sk_use|]. split; [apply sk_clears; tauto|]. split; [exact sk_visits|]. split; [apply sk_good; reflexivity|]. split; [reflexivity|]. split; [apply uint_collects|]. split; [exact sk_updates|]. split; [vm_compute; reflexivity|].
  eexists. split; [vm_compute; reflexivity|]. vm_compute. reflexivity.
Qed.

(** ** What the hypotheses are for *)

(** With fewer threads than stripes, the stripes without a thread are not cleared by [order(cuda_step<d>(current_stripe_cg()))],
    and adding up all the stripes adds what the memory contained. *)
Definition sk_few : bag := kn_bag sk_t (map (Z.add (7 * 117901063)) [100; 0; 0; 0; 0; 5]).
Theorem C64_few_threads_refuted : exists P f e p w l shm block fills us tid sts out out' x v, collects P f e /\ striped_use p w l shm /\ 0 < block < sp_num p /\ clears p l block fills /\
  (forall u, In u us -> fine_update p l u /\ P (up_value u)) /\ visits l sts /\ good_bag out l /\ nobcast (bg_struct out) = true /\
  striped_kernel f e p fills us tid sts shm out = Done out' /\ in_box l x /\ P v /\ has_value out x v /\ ~ has_value out' x (fold_left f (given_to l x us) v).
Proof.
  exists (is_uint 4), (add_uint 4), (uint 4 0), str_p, str_w, sk_l, sk_shm, 3, (sk_fills 3), [], 0, sk_sts, sk_out, sk_few, (fun _ => 0), (uint 4 100).
  assert (Hx : in_box sk_l (fun _ => 0)) by (intros q n [E|[E|[]]]; injection E as <- <-; lia).
  assert (Hn : named sk_t (fun _ => 0) [(Idx 1, Dyn 0); (Idx 2, Dyn 0)]).
  { split; [intros d; reflexivity|]. intros d Hd. assert (Hc : cube sk_t sk_l) by (apply kn_cube; vm_compute; reflexivity). apply (proj1 (proj2 Hc)) in Hd. destruct Hd as [<-|[<-|[]]]; eexists; split; reflexivity. }
  split; [apply uint_collects|]. split; [exact sk_use|]. split; [split; reflexivity|]. split; [apply sk_clears; tauto|]. split; [intros u []|]. split; [exact sk_visits|]. split; [apply sk_good; reflexivity|]. split; [reflexivity|].
  split; [vm_compute; reflexivity|]. split; [exact Hx|]. split; [exists 100; reflexivity|]. split; [exists [(Idx 1, Dyn 0); (Idx 2, Dyn 0)]; split; [exact Hn|vm_compute; reflexivity]|].
  intros H. assert (Hf : has_value sk_few (fun _ => 0) (uint 4 (7 * 117901063 + 100))) by (exists [(Idx 1, Dyn 0); (Idx 2, Dyn 0)]; split; [exact Hn|vm_compute; reflexivity]).
  pose proof (C58_one_value sk_few sk_l (fun _ => 0) _ _ (sk_good sk_few eq_refl eq_refl) Hx Hf H) as E. vm_compute in E. discriminate E.
Qed.
Print Assumptions C64_few_threads_refuted.
