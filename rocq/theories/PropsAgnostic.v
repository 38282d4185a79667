(** * C66: programs that name elements by their indices do not depend on the layouts *)

From Verif Require Import Check PropsLayout PropsOrder PropsKernel AgnosticAccept.
From Verif Require Import SpecAgnostic.

(** Going through the dimensions in a stated order: the calls have all the combinations of indices, in this order, whatever the layouts. *)
Theorem C66_order : forall w ss lens, cubes ss lens -> (forall s, In s ss -> sound_struct s) ->
  for_each (order (traverser ss) (stated w (map fst lens))) [] <> Undefined /\
  forall calls, for_each (order (traverser ss) (stated w (map fst lens))) [] = Done calls ->
  map (fun st => map (asg_of st) (map fst lens)) calls = all_indices lens.
Proof. intros w ss lens H1 H2. exact (conj (stated_defined w ss lens H1 H2) (stated_calls w ss lens H1 H2)). Qed.
Print Assumptions C66_order.

(** The program does with the bags what it does with the arrays that they hold: it returns the same, and the bags hold the same arrays afterwards. *)
Theorem C66_refines : forall A (p : program A) bags xs r xs', hold bags xs -> meaning p xs = Some (r, xs') ->
  exec p bags = Rejected \/ exists bags', exec p bags = Done (r, bags') /\ hold bags' xs' /\ map bg_struct bags' = map bg_struct bags.
Proof. exact @program_refines. Qed.
Print Assumptions C66_refines.

(** It has no undefined behaviour. *)
Theorem C66_defined : forall A (p : program A) bags xs r xs', hold bags xs -> meaning p xs = Some (r, xs') -> exec p bags <> Undefined.
Proof. intros A p bags xs r xs' H E. destruct (program_refines p bags xs r xs' H E) as [->|(b & -> & _)]; discriminate. Qed.
Print Assumptions C66_defined.

(** Two sets of bags that hold the same arrays in different layouts: the program cannot tell them apart. *)
Theorem C66_layouts : forall A (p : program A) bags1 bags2 xs r xs' r1 r2 bags1' bags2', hold bags1 xs -> hold bags2 xs -> meaning p xs = Some (r, xs') ->
  exec p bags1 = Done (r1, bags1') -> exec p bags2 = Done (r2, bags2') -> r1 = r2 /\ hold bags1' xs' /\ hold bags2' xs'.
Proof. exact @program_agnostic. Qed.
Print Assumptions C66_layouts.

(** Whether an access with an index for each dimension compiles does not depend on the indices. *)
Theorem C66_access : forall b st st', signature (bg_struct b) <> None -> plainly_named (bg_struct b) st -> plainly_named (bg_struct b) st' ->
  bag_ref b st <> Rejected -> bag_ref b st' <> Rejected.
Proof. exact access_alike. Qed.
Print Assumptions C66_access.

(** So if one access to each bag compiles, and the traversals do, then the program runs and does what it does with the arrays. *)
Theorem C66_done : forall A (p : program A) bags xs r xs', hold bags xs -> compiles p bags xs -> meaning p xs = Some (r, xs') ->
  exists bags', exec p bags = Done (r, bags') /\ hold bags' xs'.
Proof. intros A p bags xs r xs' Hh Hc E. destruct (program_done p bags bags xs r xs' Hh eq_refl Hc E) as (bags' & H1 & H2 & _). exists bags'. auto. Qed.
Print Assumptions C66_done.

(** ** A 4 x 3 matrix by rows, and the same matrix in tiles of two rows, whose columns are reversed. *)
Definition ag_rows : struct := vec 1 (Dyn 4) (vec 2 (Dyn 3) (Scalar int4)).
Definition ag_tiles : struct := View (VReverse 2) (View (VMerge 3 4 1) (vec 3 (Dyn 2) (vec 2 (Dyn 3) (vec 4 (Sta 2) (Scalar int4))))).
Definition ag_val (i j : Z) : Z := (7 * i + 5 * j) mod 11.
Definition ag_lens : list (dim * Z) := [(1, 4); (2, 3)].
Definition ag_b1 : bag := kn_bag ag_rows (flat_map (fun i => map (ag_val i) [0; 1; 2]) [0; 1; 2; 3]).
Definition ag_b2 : bag := kn_bag ag_tiles (flat_map (fun t => flat_map (fun j => map (fun k => ag_val (2 * t + k) (2 - j)) [0; 1]) [0; 1; 2]) [0; 1]).
Definition ag_x : array := {| ar_dims := ag_lens; ar_at := fun is => match is with [i; j] => uint 4 (ag_val i j) | _ => [] end; ar_writable := true |}.

Definition ag_at (is : list Z) : state := match is with [j; i] => [(Idx 2, Dyn j); (Idx 1, Dyn i)] | _ => [] end.
(** Going through the elements: an element that exceeds the running value is replaced by it and becomes the running value, the other ones are added to it. *)
Fixpoint ag_walk (l : list (list Z)) (acc : Z) : program Z :=
  match l with
  | [] => Return acc
  | is :: l => Read 0 (ag_at is) (fun v => if acc <? le_value v then Write 0 (ag_at is) (uint 4 acc) (ag_walk l (le_value v)) else ag_walk l (acc + le_value v))
  end.
Definition ag_p (w : way) : program Z := Length 0 2 (fun n => ForEach [0%nat; 0%nat] w [2; 1] (fun l => ag_walk l n)).

Lemma ag_sound s : In s [ag_rows; ag_tiles] -> sound_struct s.
Proof.
  intros Hs. assert (H : swf s = true /\ lenokb s nolens = true /\ isize s nolens < W /\ forall a, goodb s nolens a = true).
  { destruct Hs as [<-|[<-|[]]]; (split; [vm_compute; reflexivity|]; split; [vm_compute; reflexivity|]; split; [rewrite W_eq; vm_compute; reflexivity|]; intros a; vm_compute; reflexivity). }
  destruct H as (A & B & C & D). split; [exact A|]. split; [apply lenokb_sound, B|]. split; [intros a; apply goodb_sound, D|exact C].
Qed.

Lemma ag_good : good_bag ag_b1 ag_lens /\ good_bag ag_b2 ag_lens.
Proof.
  split; (split; [apply kn_cube; vm_compute; reflexivity|]; split; [apply ag_sound; cbn; tauto|]; exists (Dyn 48), 48; repeat split; vm_compute; try reflexivity; discriminate).
Qed.

Lemma ag_holds b : b = ag_b1 \/ b = ag_b2 -> holds_array b ag_x.
Proof.
  intros Hb. assert (Hg : good_bag b ag_lens) by (destruct ag_good; destruct Hb as [->| ->]; assumption). split; [repeat constructor; cbn; intuition discriminate|]. split; [exact Hg|].
  split; [intros _; destruct Hb as [->| ->]; reflexivity|]. intros x Hx. pose proof (Hx 1 4 (or_introl eq_refl)) as H1. pose proof (Hx 2 3 (or_intror (or_introl eq_refl))) as H2.
  exists (ag_at [x 2; x 1]). split.
  - split; [intros d; reflexivity|]. intros d Hd. destruct Hg as ((_ & Hds & _) & _). apply Hds in Hd. cbn in Hd.
    assert (Hv : forall z, 0 <= z < 4 -> vz (Dyn z) = Some z) by (intros z Hz; cbn [vz]; rewrite u64_small by (rewrite W_eq; lia); reflexivity).
    destruct Hd as [<-|[<-|[]]]; [exists (Dyn (x 1))|exists (Dyn (x 2))]; (split; [reflexivity|apply Hv; lia]).
  - cbn [map fst ar_dims ag_x ag_lens ar_at]. generalize dependent (x 1). generalize dependent (x 2). intros j Hj i Hi.
    assert (Ci : i = 0 \/ i = 1 \/ i = 2 \/ i = 3) by lia. assert (Cj : j = 0 \/ j = 1 \/ j = 2) by lia.
    destruct Hb as [->| ->]; destruct Ci as [->|[->|[->| ->]]]; destruct Cj as [->|[->| ->]]; vm_compute; reflexivity.
Qed.

(** The values of the bag and of the array, by columns. *)
Definition ag_bag_values (b : bag) : list (outcome Z) := map (fun is => out_map le_value (bag_read b (ag_at is))) (all_indices [(2, 3); (1, 4)]).
Definition ag_values (x : array) : list Z := map (fun is => le_value (ar_at x (rev is))) (all_indices [(2, 3); (1, 4)]).
Definition ag_after : list Z := [0; 3; 3; 10; 5; 1; 8; 4; 10; 6; 2; 9].

(** The bags hold the same array, their bytes differ, and the program does the same with both.  A traversal in the default order would tell them apart. *)
Example C66_ex : hold [ag_b1] [ag_x] /\ hold [ag_b2] [ag_x] /\ bg_data ag_b1 <> bg_data ag_b2 /\
  (exists x', meaning (ag_p Hoisted) [ag_x] = Some (65, [x']) /\ ag_values ag_x <> ag_after /\ ag_values x' = ag_after) /\
  (exists b', exec (ag_p Hoisted) [ag_b1] = Done (65, [b']) /\ ag_bag_values b' = map Done ag_after) /\
  (exists b', exec (ag_p Hoisted) [ag_b2] = Done (65, [b']) /\ ag_bag_values b' = map Done ag_after) /\
  meaning (Read 0 (ag_at [3; 0]) (fun v => Return v)) [ag_x] = None /\
  (cubes [ag_rows; ag_tiles] ag_lens /\ forall s, In s [ag_rows; ag_tiles] -> sound_struct s) /\
  out_map (map (fun st => map (asg_of st) [1; 2])) (for_each (traverser [ag_rows]) []) <> out_map (map (fun st => map (asg_of st) [1; 2])) (for_each (traverser [ag_tiles]) []).
Proof.
  split; [constructor; [apply ag_holds; auto|constructor]|]. split; [constructor; [apply ag_holds; auto|constructor]|]. split; [vm_compute; discriminate|].
  split; [eexists; split; [vm_compute; reflexivity|]; split; [vm_compute; discriminate|vm_compute; reflexivity]|].
  split; [eexists; split; [vm_compute; reflexivity|vm_compute; reflexivity]|]. split; [eexists; split; [vm_compute; reflexivity|vm_compute; reflexivity]|]. split; [vm_compute; reflexivity|].
  split; [split; [|exact ag_sound]|vm_compute; discriminate]. split; [repeat constructor; cbn; intuition discriminate|]. split.
  - intros s Hs. exists ag_lens. split; [|intros e He; exact He]. destruct Hs as [<-|[<-|[]]]; apply kn_cube; vm_compute; reflexivity.
  - intros q [<-|[<-|[]]]; exists ag_rows; (split; [left; reflexivity|vm_compute; reflexivity]).
Qed.

Lemma ag_plain b j i : b = ag_b1 \/ b = ag_b2 -> plainly_named (bg_struct b) (ag_at [j; i]).
Proof.
  intros Hb. split; [intros d; reflexivity|]. intros d Hd. unfold mentions in Hd.
  destruct Hb as [->| ->]; vm_compute in Hd; repeat (destruct Hd as [<-|Hd]); try contradiction Hd; (split; [intros Hh|intros Hn]); try (vm_compute in Hh; discriminate Hh); try (exfalso; apply Hn; vm_compute; reflexivity);
    try (eexists; reflexivity); reflexivity.
Qed.

Lemma ag_accessible b : b = ag_b1 \/ b = ag_b2 -> accessible b.
Proof. intros Hb. exists (ag_at [0; 0]). split; [apply ag_plain, Hb|]. destruct Hb as [->| ->]; vm_compute; discriminate. Qed.

Lemma ag_walk_compiles b : b = ag_b1 \/ b = ag_b2 -> forall l acc x, Forall (fun is => length is = 2%nat) l -> ar_dims x = ag_lens -> compiles (ag_walk l acc) [b] [x].
Proof.
  intros Hb. induction l as [|is l IH]; intros acc x Hl Hd; [exact I|]. inv Hl. destruct is as [|j [|i [|]]]; try discriminate. cbn [ag_walk compiles nth_error].
  split; [exists b; split; [reflexivity|]; split; [apply ag_accessible, Hb|apply ag_plain, Hb]|]. intros y is' Ey _. injection Ey as <-.
  destruct (acc <? _); [|apply IH; assumption]. cbn [compiles nth_error]. split; [|intros y is2 Ey _; injection Ey as <-; apply IH; assumption].
  exists b, int4. split; [reflexivity|]. split; [apply ag_accessible, Hb|]. split; [apply ag_plain, Hb|]. destruct Hb as [->| ->]; (split; [discriminate|]; split; reflexivity).
Qed.

(** The program compiles for both layouts. *)
Example C66_done_ex : forall b, b = ag_b1 \/ b = ag_b2 -> hold [b] [ag_x] /\ compiles (ag_p Reordered) [b] [ag_x] /\ compiles (ag_p Hoisted) [b] [ag_x].
Proof.
  intros b Hb. split; [constructor; [apply ag_holds, Hb|constructor]|].
  assert (H : forall w, calls_in [b; b] w [2; 1] <> Rejected -> compiles (ag_p w) [b] [ag_x]).
  { intros w Hw. unfold ag_p. cbn [compiles nth_error]. intros x n Ex En. split; [exists [b; b]; split; [reflexivity|exact Hw]|]. intros ys ls Ey El.
    cbn in Ey. injection Ey as <-. vm_compute in El. injection El as <-. apply ag_walk_compiles; [exact Hb| |reflexivity]. vm_compute. repeat constructor. }
  destruct Hb as [->| ->]; (split; apply H; vm_compute; discriminate).
Qed.
