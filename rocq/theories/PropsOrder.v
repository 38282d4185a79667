(** * C12: an order changes the order of the visits, not what is visited *)

From Coq Require Import Permutation.
From Verif Require Import Select Check PropsLayout.

(** [traverser(s...).order(p).for_each(f)], with views that only rearrange, passes to [f] the same
    elements as [traverser(s...).for_each(f)], each the same number of times. *)
Theorem C12_order : forall ss p l1 l2,
  let u := Union ss in let t := order (traverser ss) p in
  uswf (top_struct t) = true -> lenok (top_struct t) nolens -> over rearranges u (top_struct t) nolens ->
  for_each (traverser ss) [] = Done l1 -> for_each t [] = Done l2 -> (forall st, In st l2 -> complete u st) ->
  Permutation (map (index_list u) l1) (map (index_list u) l2).
Proof. exact order_perm. Qed.
Print Assumptions C12_order.

(** The same for a further order of an ordered traverser; the first order may also select. *)
Theorem C12_reorder : forall ss p1 p2 l1 l2,
  let u := Union ss in let t1 := order (traverser ss) p1 in let t2 := order t1 p2 in
  uswf (top_struct t2) = true -> lenok (top_struct t2) nolens ->
  over documented u (top_struct t1) nolens -> over rearranges (top_struct t1) (top_struct t2) nolens ->
  for_each t1 [] = Done l1 -> for_each t2 [] = Done l2 ->
  (forall st, In st l1 -> complete u st) -> (forall st, In st l2 -> complete u st) ->
  Permutation (map (index_list u) l1) (map (index_list u) l2).
Proof. exact rearrange_perm. Qed.
Print Assumptions C12_reorder.

(** Orders can be given one after another. *)
Theorem C12_order_twice : forall t p q, order (order t p) q = order t (p ++ q).
Proof. intros t p q. unfold order. cbn [tr_struct tr_order]. rewrite app_assoc. reflexivity. Qed.
Print Assumptions C12_order_twice.

(** A 4 x 3 matrix; rows in blocks of 2, the position in the block outermost, columns backwards. *)
Definition ord_ex : struct := vec 2 (Dyn 4) (vec 3 (Dyn 3) (Scalar int4)).
Definition ord_p : proto := [LView (VBlocks 2 4 5); LView (VSetLength 5 (Dyn 2)); LView (VReverse 3); LView (VHoist 5)].
Definition ord_t : trav := order (traverser [ord_ex]) ord_p.
Definition ord_l1 : list state := match for_each (traverser [ord_ex]) [] with Done l => l | _ => [] end.
Definition ord_l2 : list state := match for_each ord_t [] with Done l => l | _ => [] end.

(** [complete], as a computation. *)
Definition completeb (s : struct) (st : state) : bool :=
  match dims_of s st with
  | Some p => forallb (fun e => match get (Idx (fst e)) st with Some v => match vz v with Some _ => true | None => false end | None => false end) p
  | None => false
  end.
Lemma completeb_sound s l : forallb (completeb s) l = true -> forall st, In st l -> complete s st.
Proof.
  rewrite forallb_forall. intros H st Hin. specialize (H st Hin). unfold completeb in H. destruct (dims_of s st) as [p|] eqn:E; [|discriminate].
  exists p. split; [exact E|]. intros d Hd. rewrite forallb_forall in H. destruct (fst_in _ _ Hd) as [k Hk]. specialize (H _ Hk). cbn [fst] in H.
  destruct (get (Idx d) st) as [v|]; [|discriminate]. destruct (vz v) as [x|] eqn:Ev; [|discriminate]. eauto.
Qed.

Example C12_ex :
  uswf (top_struct ord_t) = true /\ lenok (top_struct ord_t) nolens /\ over rearranges (Union [ord_ex]) (top_struct ord_t) nolens /\
  for_each (traverser [ord_ex]) [] = Done ord_l1 /\ for_each ord_t [] = Done ord_l2 /\
  (forall st, In st ord_l2 -> complete (Union [ord_ex]) st) /\
  map (index_list (Union [ord_ex])) ord_l2 =
    [[0; 2]; [0; 1]; [0; 0]; [2; 2]; [2; 1]; [2; 0]; [1; 2]; [1; 1]; [1; 0]; [3; 2]; [3; 1]; [3; 0]].
Proof.
  split; [vm_compute; reflexivity|]. split; [apply lenokb_sound; vm_compute; reflexivity|]. split.
  { change (top_struct ord_t) with (View (VHoist 5) (View (VReverse 3) (View (VSetLength 5 (Dyn 2)) (View (VBlocks 2 4 5) (Union [ord_ex]))))).
    constructor; [split; [split; [reflexivity|]|exact I]; intros c; exact I|].
    constructor; [split; [split; [reflexivity|]|exact I]; intros c; exact I|].
    constructor; [split; [split; [reflexivity|]|exact I]; intros c; exact I|].
    constructor; [|constructor; intros d; cbn [view_lenv fupds]; unfold fupd, nolens; cbn [Z.eqb Pos.eqb];
      repeat match goal with |- context [if ?c then _ else _] => destruct c end; reflexivity].
    split; [split; [reflexivity|]|].
    - intros c. vm_compute. discriminate.
    - exists 2. split; [left; split; reflexivity|]. intros c.
      match goal with |- on_len ?x _ => replace x with (Some 4) by (vm_compute; reflexivity) end. reflexivity. }
  split; [vm_compute; reflexivity|]. split; [vm_compute; reflexivity|]. split; [apply completeb_sound; vm_compute; reflexivity|].
  vm_compute. reflexivity.
Qed.
