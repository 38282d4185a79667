(** * C53: members are stored and read back, constants take no space *)
From Coq Require Import ZArith List Bool Lia.
From Verif Require Import Base Sig Struct Shortcuts Contain SpecContain ContainFacts PropsLayout.
Import ListNotations.
Open Scope Z_scope.

(** [get<I>] of an object answers the argument with that number, for every mixture of empty and other members. *)
Theorem C53_get : forall n ms vs i a m, Forall a_type ms -> Forall2 is_a ms vs ->
  get_member read ms i a (put (Class n ms) (OClass vs) a m) = nth_error vs i.
Proof. exact get_api. Qed.
Print Assumptions C53_get.

(** An object that is written stands at its address, and only its own bytes are written: none for an empty type. *)
Theorem C53_object : forall c v a m, a_type c -> is_a c v ->
  stands c v a (put c v a m) /\ untouched_but a (if empty_cls c then 0 else sizeof c) m (put c v a m).
Proof. exact put_api. Qed.
Print Assumptions C53_object.

(** The parts of an object lie inside of it, do not overlap and are aligned. *)
Theorem C53_parts : forall c a, a_type c -> (alignof c | a) ->
  Forall (part_fits a (sizeof c)) (parts c a) /\ ForallOrdPairs parts_apart (parts c a).
Proof. exact parts_api. Qed.
Print Assumptions C53_parts.

(** Copying the bytes of an object to another address copies the object (as passing a structure to a kernel does). *)
Theorem C53_copy : forall c v a b m m2, a_type c -> is_a c v -> stands c v a m ->
  (forall k, 0 <= k < sizeof c -> m2 (b + k) = m (a + k)) -> stands c v b m2.
Proof. exact copy_api. Qed.
Print Assumptions C53_copy.

(** Two structures of the same type with the same bytes are the same structure: every length, index and bound is held by
    the type or by the bytes. *)
Theorem C53_structure_bytes : forall s s2 a b m m2,
  struct_cls s = struct_cls s2 -> Forall is_word (numbers s) -> Forall is_word (numbers s2) ->
  stands (struct_cls s) (struct_obj s) a m -> stands (struct_cls s2) (struct_obj s2) b m2 ->
  (forall k, 0 <= k < sizeof (struct_cls s) -> m2 (b + k) = m (a + k)) -> s = s2.
Proof. exact struct_bytes_api. Qed.
Print Assumptions C53_structure_bytes.

(** A structure is an empty type if and only if it holds no run-time values.  Otherwise it takes at least 8 bytes for each run-time
    value, and exactly as many if no two of its members have the same empty type. *)
Theorem C53_structure_size : forall s, (empty_cls (struct_cls s) = true <-> dyn_count s = 0) /\
  (dyn_count s = 0 -> sizeof (struct_cls s) = 1) /\
  (0 < dyn_count s -> 8 * dyn_count s <= sizeof (struct_cls s)) /\
  (0 < dyn_count s -> NoDup (empties (struct_cls s)) -> sizeof (struct_cls s) = 8 * dyn_count s).
Proof. exact struct_space_api. Qed.
Print Assumptions C53_structure_size.

(** In general every class of words takes 8 bytes for each word and at most 8 bytes more for each member of an empty type. *)
Theorem C53_size : forall c, words c -> empty_cls c = false ->
  8 * word_count c <= sizeof c <= 8 * (word_count c + Z.of_nat (length (empties c))) /\ (NoDup (empties c) -> sizeof c = 8 * word_count c).
Proof. exact space_api. Qed.
Print Assumptions C53_size.

(** [contain_cat] joins the members in order. *)
Theorem C53_cat : forall A (cs : list (list A)), contain_cat cs = concat cs.
Proof. intros A. exact cat_api. Qed.
Print Assumptions C53_cat.

(** A matrix with one static and one run-time length of which a row is taken. *)
Definition stored_ex : struct := View (VFix 2 (Dyn 3)) (View (VSlice 1 (Sta 1) (Dyn 7)) (vec 1 (Dyn 9) (vec 2 (Sta 5) (Scalar int4)))).

Example C53_ex : a_type (struct_cls stored_ex) /\ is_a (struct_cls stored_ex) (struct_obj stored_ex) /\ dyn_count stored_ex = 3 /\ Forall is_word (numbers stored_ex) /\
  NoDup (empties (struct_cls stored_ex)) /\ sizeof (struct_cls stored_ex) = 24 /\
  parts (struct_cls stored_ex) 64 = [(64, 8, 8); (72, 8, 8); (80, 8, 8)] /\
  read (struct_cls stored_ex) 64 (put (struct_cls stored_ex) (struct_obj stored_ex) 64 (fun _ => 255)) = struct_obj stored_ex.
Proof.
  split; [apply words_type, struct_words|]. split; [apply struct_is|]. split; [reflexivity|].
  split; [repeat constructor; cbn; rewrite ?W_eq; lia|]. split.
  { vm_compute. repeat (constructor; [intros H; repeat (destruct H as [H|H]; [discriminate H|]); exact H|]). constructor. }
  split; [reflexivity|]. split; reflexivity.
Qed.

(** Members of several sizes, two of them empty. *)
Definition mixed_ex : list cls := [Const 1; Leaf 1 1; Const 2; Leaf 8 8; Leaf 4 4].
Definition mixed_vals : list obj := [OConst; OLeaf [7]; OConst; OLeaf [1; 2; 3; 4; 5; 6; 7; 8]; OLeaf [9; 9; 9; 9]].

Example C53_get_ex : Forall a_type mixed_ex /\ Forall2 is_a mixed_ex mixed_vals /\ sizeof (Class [] mixed_ex) = 24 /\
  parts (Class [] mixed_ex) 0 = [(0, 1, 1); (8, 8, 8); (16, 4, 4)] /\
  get_member read mixed_ex 4 0 (put (Class [] mixed_ex) (OClass mixed_vals) 0 (fun _ => 0)) = Some (OLeaf [9; 9; 9; 9]).
Proof.
  split.
  { constructor; [constructor|]. constructor; [apply (a_leaf 0 1); lia|]. constructor; [constructor|]. constructor; [apply (a_leaf 3 1); lia|].
    constructor; [apply (a_leaf 2 1); lia|constructor]. }
  split; [repeat constructor|]. split; [reflexivity|]. split; reflexivity.
Qed.

(** Static values do take space if two of them are the same: a structure with two run-time lengths of which two dimensions are fixed
    by the static index 0 takes 24 bytes instead of 16, and each further one adds 8.  The two bases [contain_impl<integral_constant<0>>] have the
    same type, so that they must not have the same address. *)
Definition fixed_twice : struct := View (VFix 1 (Sta 0)) (View (VFix 2 (Sta 0)) (vec 1 (Dyn 9) (vec 2 (Dyn 9) (Scalar int4)))).
Definition fixed_thrice : struct := View (VFix 3 (Sta 0)) (View (VBcast 3) fixed_twice).

Theorem C53_static_free_refuted : dyn_count fixed_twice = 2 /\ sizeof (struct_cls fixed_twice) = 24 /\
  dyn_count fixed_thrice = 2 /\ sizeof (struct_cls fixed_thrice) = 32.
Proof. vm_compute. repeat split. Qed.
Print Assumptions C53_static_free_refuted.
