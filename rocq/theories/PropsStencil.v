(** * C49: stencils over the inner part of a structure *)

From Verif Require Import Check PropsLayout PropsOrder StencilFacts.

(** [neighbor] adds each difference to the index of its dimension and keeps everything else. *)
Theorem C49_moves : forall l st st', NoDup (map fst l) -> neighbor l st = Some st' ->
  (forall d x, In (d, x) l -> exists i, get (Idx d) st = Some i /\ runtime i = true /\ get (Idx d) st' = Some (vadd i x)) /\
  (forall t, (forall d, In d (map fst l) -> t <> Idx d) -> get t st' = get t st).
Proof. exact neighbor_moves. Qed.
Print Assumptions C49_moves.

(** It is accepted exactly if the dimensions have run-time indices. *)
Theorem C49_accepted : forall l st, neighbor l st <> None <-> forall d, In d (map fst l) -> exists i, get (Idx d) st = Some i /\ runtime i = true.
Proof. exact neighbor_defined. Qed.
Print Assumptions C49_accepted.

(** Moving by the opposite differences leads back. *)
Theorem C49_back : forall l l' st st', NoDup (map fst l) -> opposite l l' -> neighbor l st = Some st' ->
  exists st2, neighbor l' st' = Some st2 /\ (forall d, In d (map fst l) -> exists i j, get (Idx d) st = Some i /\ get (Idx d) st2 = Some j /\ vz j = vz i) /\
    forall t, (forall d, In d (map fst l) -> t <> Idx d) -> get t st2 = get t st.
Proof. exact neighbor_back. Qed.
Print Assumptions C49_back.

Definition move_st : state := [(Idx 2, Dyn 3); (Idx 3, Dyn 1); (Idx 4, Sta 1)].
Example C49_moves_ex : NoDup (map fst [(2, Dyn (-1)); (3, Sta 1)]) /\ neighbor [(2, Dyn (-1)); (3, Sta 1)] move_st = Some [(Idx 4, Sta 1); (Idx 2, Dyn 2); (Idx 3, Dyn 2)] /\
  opposite [(2, Dyn (-1)); (3, Sta 1)] [(2, Sta 1); (3, Dyn (-1))] /\ neighbor [(4, Dyn 1)] move_st = None /\ neighbor [(5, Dyn 1)] move_st = None.
Proof.
  split; [repeat constructor; simpl; intuition discriminate|]. split; [vm_compute; reflexivity|]. split; [|split; vm_compute; reflexivity].
  constructor; [split; [reflexivity|]; exists (u64 (-1)), 1; repeat split; vm_compute; reflexivity|].
  constructor; [split; [reflexivity|]; exists 1, (u64 (-1)); repeat split; vm_compute; reflexivity|]. constructor.
Qed.

(** The structures [ss] are traversed together, in an order that starts with [symmetric_spans<ds...>(s, margins...)] for one
    of them and continues with [q].  From each visited element, the elements of [s] within the margins in these
    dimensions exist. *)
Theorem C49_inside : forall ss s m p q l0 ls l,
  let u := Union ss in let t1 := order (traverser ss) p in let t := order t1 q in
  In s ss -> no_tuples ss -> consistent ss -> p_symmetric_spans m s [] = Some p -> NoDup (map fst m) -> fixed_lengths s (map fst m) ->
  uswf (top_struct t) = true -> lenok (top_struct t) nolens -> swf s = true ->
  over documented u (top_struct t1) nolens -> over documented (top_struct t1) (top_struct t) nolens ->
  for_each (traverser ss) [] = Done l0 -> for_each (traverser [s]) [] = Done ls -> for_each t [] = Done l ->
  (forall st, In st l -> complete u st) ->
  forall st diffs st', In st l -> within m diffs -> neighbor diffs st = Some st' -> visited s ls st'.
Proof. exact stencil_inside. Qed.
Print Assumptions C49_inside.

(** [symmetric_span] gives all dimensions the same margin. *)
Theorem C49_margins : forall ds s st off, p_symmetric_span ds s st off = p_symmetric_spans (map (fun d => (d, off)) ds) s st.
Proof. exact symmetric_span_margins. Qed.
Print Assumptions C49_margins.

(** They lie in the memory of [s]. *)
Theorem C49_memory : forall ss s m p q l0 l,
  let u := Union ss in let t1 := order (traverser ss) p in let t := order t1 q in
  In s ss -> no_tuples ss -> consistent ss -> p_symmetric_spans m s [] = Some p -> NoDup (map fst m) -> fixed_lengths s (map fst m) ->
  uswf (top_struct t) = true -> lenok (top_struct t) nolens -> swf s = true ->
  over documented u (top_struct t1) nolens -> over documented (top_struct t1) (top_struct t) nolens ->
  for_each (traverser ss) [] = Done l0 -> for_each t [] = Done l ->
  (forall st, In st l -> complete u st) ->
  forall st diffs st' o n, In st l -> within m diffs -> neighbor diffs st = Some st' ->
    good s nolens (asg_of st') -> isize s nolens < W -> offset s st' = Some o -> get_size s st' = Some n ->
    exists ov nv c, vz o = Some ov /\ vz n = Some nv /\ scalar_t s st' = Some c /\ ov + ct_size c <= nv.
Proof. exact stencil_memory. Qed.
Print Assumptions C49_memory.

(** Two matrices with different layouts.  The inner part of the first one is traversed in blocks of two columns. *)
Definition sten_a : struct := vec 2 (Dyn 6) (vec 3 (Dyn 5) (Scalar int4)).
Definition sten_b : struct := vec 3 (Dyn 5) (vec 2 (Dyn 6) (Scalar int4)).
Definition sten_p : proto := match p_symmetric_spans [(2, Dyn 1); (3, Sta 1)] sten_a [] with Some p => p | None => [] end.
Definition sten_q : proto := p_strip_mine 2 4 5 (Dyn 2).
Definition sten_t : trav := order (order (traverser [sten_a; sten_b]) sten_p) sten_q.
Definition sten_list (t : trav) : list state := match for_each t [] with Done l => l | _ => [] end.

Ltac none_given := apply over_base; intros d; cbn [view_lenv fupds]; unfold fupd, nolens; cbn [Z.eqb Pos.eqb]; repeat match goal with |- context [if ?c then _ else _] => destruct c end; reflexivity.

Example C49_ex :
  In sten_a [sten_a; sten_b] /\ no_tuples [sten_a; sten_b] /\ consistent [sten_a; sten_b] /\ p_symmetric_spans [(2, Dyn 1); (3, Sta 1)] sten_a [] = Some sten_p /\
  fixed_lengths sten_a [2; 3] /\ uswf (top_struct sten_t) = true /\ lenok (top_struct sten_t) nolens /\ swf sten_a = true /\
  over documented (Union [sten_a; sten_b]) (top_struct (order (traverser [sten_a; sten_b]) sten_p)) nolens /\
  over documented (top_struct (order (traverser [sten_a; sten_b]) sten_p)) (top_struct sten_t) nolens /\
  for_each (traverser [sten_a; sten_b]) [] = Done (sten_list (traverser [sten_a; sten_b])) /\
  for_each (traverser [sten_a]) [] = Done (sten_list (traverser [sten_a])) /\ for_each sten_t [] = Done (sten_list sten_t) /\
  (forall st, In st (sten_list sten_t) -> complete (Union [sten_a; sten_b]) st) /\ List.length (sten_list sten_t) = 12%nat /\
  (exists st st', In st (sten_list sten_t) /\ within [(2, Dyn 1); (3, Sta 1)] [(2, Dyn 1); (3, Dyn (-1))] /\ neighbor [(2, Dyn 1); (3, Dyn (-1))] st = Some st' /\
     index_list sten_a st = [4; 3] /\ index_list sten_a st' = [5; 2]).
Proof.
  split; [left; reflexivity|]. split; [intros s [<-|[<-|[]]]; reflexivity|]. split.
  { intros s q st len n Hs Hq _ El En. assert (Hd : q = 2 \/ q = 3).
    { destruct Hs as [<-|[<-|[]]]; unfold has_dim in Hq; vm_compute in Hq; revert Hq; destruct q as [|q|q]; try discriminate; repeat (destruct q as [q|q|]; try discriminate; auto). }
    exists len, n. split; [|split; [exact En|lia]]. rewrite <- El.
    destruct Hs as [<-|[<-|[]]], Hd as [->| ->]; unfold length_; simpl; repeat rewrite ?has_with, ?has_remove, ?get_with, ?get_remove; simpl;
      repeat match goal with |- context [has ?t st] => destruct (has t st) end; reflexivity. }
  split; [vm_compute; reflexivity|]. split.
  { intros d q Hd. simpl. repeat match goal with |- context [if ?c then _ else _] => destruct c end; simpl; tauto. }
  split; [vm_compute; reflexivity|]. split; [apply lenokb_sound; vm_compute; reflexivity|]. split; [vm_compute; reflexivity|]. split.
  { change (top_struct (order (traverser [sten_a; sten_b]) sten_p)) with
      (View (VSpan 3 (Sta 1) (Dyn 4)) (View (VSpan 2 (Dyn 1) (Dyn 5)) (Union [sten_a; sten_b]))).
    constructor; [split; [reflexivity|]; intros c; vm_compute; split; discriminate|].
    constructor; [split; [reflexivity|]; intros c; vm_compute; split; discriminate|]. none_given. }
  split.
  { change (top_struct sten_t) with (View (VHoist 4) (View (VSetLength 5 (Dyn 2)) (View (VBlocks 2 4 5) (top_struct (order (traverser [sten_a; sten_b]) sten_p))))).
    constructor; [split; [reflexivity|]; intros c; exact I|]. constructor; [split; [reflexivity|]; intros c; exact I|].
    constructor; [split; [reflexivity|]; intros c; vm_compute; discriminate|]. none_given. }
  split; [vm_compute; reflexivity|]. split; [vm_compute; reflexivity|]. split; [vm_compute; reflexivity|]. split; [apply completeb_sound; vm_compute; reflexivity|].
  split; [vm_compute; reflexivity|]. eexists (nth 11 (sten_list sten_t) []), _. split; [apply (nth_error_In _ 11); vm_compute; reflexivity|]. split.
  { split; [repeat constructor; simpl; intuition discriminate|]. intros d x [Hx|[Hx|[]]]; injection Hx as <- <-; [exists (Dyn 1), 1|exists (Sta 1), (-1)]; (split; [simpl; tauto|split; [vm_compute; reflexivity|discriminate]]). }
  split; [vm_compute; reflexivity|]. split; vm_compute; reflexivity.
Qed.
Print Assumptions C49_ex.

(** It fails for the blocks of [into_blocks_dynamic]: the next block may be shorter. *)
Definition sten_blocks : struct := apply (p_into_blocks_dynamic 1 2 3 4 (Dyn 4)) (vec 1 (Dyn 10) (Scalar int4)).
Theorem C49_blocks_refuted : exists s m p l st diffs st' o n x y,
  swf s = true /\ p_symmetric_spans m s [] = Some p /\ for_each (order (traverser [s]) p) [] = Done l /\ In st l /\ within m diffs /\
  neighbor diffs st = Some st' /\ offset s st' = Some o /\ get_size s st' = Some n /\ vz o = Some x /\ vz n = Some y /\ y <= x.
Proof.
  exists sten_blocks, [(2, Dyn 1)], [LView (VSpan 2 (Dyn 1) (Dyn 2))]. eexists _, _, [(2, Dyn 1)], _, _, _, _, _.
  split; [vm_compute; reflexivity|]. split; [vm_compute; reflexivity|]. split; [vm_compute; reflexivity|]. split; [right; right; right; left; reflexivity|]. split.
  { split; [repeat constructor; simpl; intuition discriminate|]. intros d x [Hx|[]]; injection Hx as <- <-. exists (Dyn 1), 1.
    split; [simpl; tauto|split; [vm_compute; reflexivity|discriminate]]. }
  repeat (split; [vm_compute; reflexivity|]). vm_compute. discriminate.
Qed.
Print Assumptions C49_blocks_refuted.
