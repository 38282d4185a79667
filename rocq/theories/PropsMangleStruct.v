(** * C51: the text of a structure identifies it *)

From Coq Require Import String.
From Verif Require Import Shortcuts MangleStructFacts.
Import ListNotations.
Open Scope Z_scope.
Open Scope list_scope.

(** The text of the type names the template and, in the order of its declaration, its arguments. *)
Theorem C51_type_reads : forall tn s x, mangle tn s = Some x -> is_type tn x s.
Proof. exact type_reads. Qed.
Print Assumptions C51_type_reads.

(** Structures with the same text have the same type, and the other way round. *)
Theorem C51_type_identifies : forall tn s s' x, told_apart tn (scalars s ++ scalars s') -> mangle tn s = Some x -> mangle tn s' = Some x -> same_type s s' = true.
Proof. exact type_text. Qed.
Print Assumptions C51_type_identifies.

Theorem C51_type_same : forall tn s s', same_type s s' = true -> mangle tn s = mangle tn s'.
Proof. exact type_same. Qed.
Print Assumptions C51_type_same.

Theorem C51_type_defined : forall tn s, mangle tn s <> None <-> nameable tn s.
Proof. exact type_defined. Qed.
Print Assumptions C51_type_defined.

(** The text of a structure with its values initialises it member by member. *)
Theorem C51_expr_reads : forall tn s x, mangle_expr tn s = Some x -> is_expr tn x s.
Proof. exact expr_reads. Qed.
Print Assumptions C51_expr_reads.

(** Two texts are equal exactly if the types and the stored values are. *)
Theorem C51_expr_identifies : forall tn s s', told_apart tn (scalars s ++ scalars s') -> mangle_expr tn s <> None ->
  mangle_expr tn s = mangle_expr tn s' <-> same_type s s' = true /\ Forall2 same_value (stored s) (stored s').
Proof. exact expr_text. Qed.
Print Assumptions C51_expr_identifies.

Theorem C51_expr_defined : forall tn s, mangle_expr tn s <> None <-> nameable tn s /\ Forall (fun v => v <> Undef) (stored s).
Proof. exact expr_defined. Qed.
Print Assumptions C51_expr_defined.

(** Structures with the same text give the same answers in every state. *)
Theorem C51_expr_behaves : forall tn s s' st q x,
  told_apart tn (scalars s ++ scalars s') -> mangle_expr tn s = Some x -> mangle_expr tn s' = Some x -> signature s <> None ->
  signature s = signature s' /\ has_length s q st = has_length s' q st /\ same_answer (length_ s q st) (length_ s' q st) /\
  has_size s st = has_size s' st /\ same_answer (size_ s st) (size_ s' st) /\ has_offset s st = has_offset s' st /\ same_answer (offset s st) (offset s' st).
Proof. exact expr_behaves. Qed.
Print Assumptions C51_expr_behaves.

(** ** Examples *)

Definition int4 : cty := {| ct_id := 1; ct_size := 4; ct_align := 4 |}.
Definition bool1 : cty := {| ct_id := 2; ct_size := 1; ct_align := 1 |}.
Definition uchar : cty := {| ct_id := 3; ct_size := 1; ct_align := 1 |}.
Definition flt : cty := {| ct_id := 4; ct_size := 4; ct_align := 4 |}.
Definition some_class : cty := {| ct_id := 5; ct_size := 12; ct_align := 4 |}.

(** [int], [bool], [unsigned char], [float] and a class. *)
Definition tn (c : cty) : cppty :=
  match ct_id c with
  | 1 => TInt {| it_bytes := 4; it_signed := true |}
  | 2 | 3 => TInt {| it_bytes := 1; it_signed := false |}
  | 4 => TFloat
  | _ => TOther
  end.

(** Without the hypothesis that the element types are told apart the claim is false: [bool] and [unsigned char]. *)
Theorem C51_bool_refuted : exists x, mangle tn (Scalar bool1) = Some x /\ mangle tn (Scalar uchar) = Some x /\ same_type (Scalar bool1) (Scalar uchar) = false.
Proof. eexists. repeat split; vm_compute; reflexivity. Qed.
Print Assumptions C51_bool_refuted.

(** The structure and the text of the test "Mangle expr" (tests/mangle_test.cpp); 120 and 121 are the codes of x and y. *)
Definition matrix n := vec 121 (Dyn n) (vec 120 (Sta 42) (Scalar int4)).
Example C51_test : mangle_expr tn (matrix 24) = Some (txt
  "set_length_t<'y',vector_t<'y',set_length_t<'x',vector_t<'x',scalar<int32_t>>,std::integral_constant<uint64_t,42>>>,uint64_t>{vector_t<'y',set_length_t<'x',vector_t<'x',scalar<int32_t>>,std::integral_constant<uint64_t,42>>>{set_length_t<'x',vector_t<'x',scalar<int32_t>>,std::integral_constant<uint64_t,42>>{vector_t<'x',scalar<int32_t>>{scalar<int32_t>{},},lit<42>,},},uint64_t{24},}").
Proof. vm_compute. reflexivity. Qed.
(** The type does not tell run-time lengths apart, the expression does. *)
Example C51_values : told_apart tn (scalars (matrix 24) ++ scalars (matrix 25)) /\
  mangle tn (matrix 24) = mangle tn (matrix 25) /\ mangle_expr tn (matrix 24) <> mangle_expr tn (matrix 25) /\ stored (matrix 24) = [Dyn 24; Sta 42] /\ signature (matrix 24) <> None.
Proof.
  split; [intros c c' [<-|[<-|[]]] [<-|[<-|[]]] _; reflexivity|]. split; [vm_compute; reflexivity|]. split; [vm_compute; discriminate|]. split; [reflexivity|vm_compute; discriminate].
Qed.
Example C51_views : mangle_expr tn (View (VZCurve 0 2 122 [120; 121]) (View (VRename [(97, 98); (98, 97)]) (Tuple 116 [View (VSlice 105 (Dyn 3) (Sta 4)) (Scalar flt); Scalar int4]))) = Some (txt
  "merge_zcurve_t<(uint64_t)0,(uint64_t)2,'z',rename_t<tuple_t<'t',slice_t<'i',scalar<float>,uint64_t,std::integral_constant<uint64_t,4>>,scalar<int32_t>>,'a','b','b','a'>,'x','y'>{rename_t<tuple_t<'t',slice_t<'i',scalar<float>,uint64_t,std::integral_constant<uint64_t,4>>,scalar<int32_t>>,'a','b','b','a'>{tuple_t<'t',slice_t<'i',scalar<float>,uint64_t,std::integral_constant<uint64_t,4>>,scalar<int32_t>>{slice_t<'i',scalar<float>,uint64_t,std::integral_constant<uint64_t,4>>{scalar<float>{},uint64_t{3},lit<4>,},scalar<int32_t>{},},},}").
Proof. vm_compute. reflexivity. Qed.
(** There is no text for classes as elements, for constants above the greatest [int] and for dimensions that are not of type [char]. *)
Example C51_no_text : mangle tn (Scalar some_class) = None /\ mangle tn (vec 120 (Sta (2 ^ 31)) (Scalar int4)) = None /\ mangle tn (vec 1000 (Dyn 3) (Scalar int4)) = None /\
  mangle_expr tn (vec 120 Undef (Scalar int4)) = None /\ mangle tn (vec 120 (Sta (2 ^ 31 - 1)) (Scalar int4)) <> None.
Proof. vm_compute. repeat split; discriminate. Qed.
(** The quote is not escaped. *)
Example C51_quote : mangle tn (Vector 39 (Scalar int4)) = Some (txt "vector_t<''',scalar<int32_t>>").
Proof. vm_compute. reflexivity. Qed.
