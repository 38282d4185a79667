(** * C44: the text of integers *)

From Verif Require Import SpecMangle MangleFacts.

(** C44.  The digits of a non-negative compile-time value of an integer type read back as the value and
    have no superfluous zero, so they determine it. *)
Theorem C44_value : forall t v, is_ity t -> holds t v -> 0 <= v ->
  exists x, mangle_value t v = Some x /\ read_decimal x = Some v /\ no_leading_zero x.
Proof. exact value_text. Qed.
Print Assumptions C44_value.

(** Whatever the types, equal texts come from equal values. *)
Theorem C44_value_injective : forall t t' v v' x, is_ity t -> is_ity t' -> mangle_value t v = Some x -> mangle_value t' v' = Some x -> v = v'.
Proof. exact value_inj. Qed.
Print Assumptions C44_value_injective.

(** Negative compile-time values have no text (they do not compile). *)
Theorem C44_value_negative : forall t v, v < 0 -> mangle_value t v = None.
Proof. exact value_negative. Qed.
Print Assumptions C44_value_negative.

(** The text of a type with a literal exists exactly up to the greatest [int], and determines the literal. *)
Theorem C44_literal_type : forall L, 0 <= L -> (scalar_name_lit L <> None <-> L <= ity_max t_int) /\
  forall L' x, 0 <= L' -> scalar_name_lit L = Some x -> scalar_name_lit L' = Some x -> L = L'.
Proof. exact lit_name. Qed.
Print Assumptions C44_literal_type.

(** The digits written at run time: within the buffer for every value, and for non-negative values they read back. *)
Theorem C44_runtime : forall t v, is_ity t -> holds t v -> 0 <= v ->
  exists x, append_value t v = Some x /\ read_decimal x = Some v /\ no_leading_zero x.
Proof. exact append_text. Qed.
Print Assumptions C44_runtime.

Theorem C44_runtime_defined : forall t v, is_ity t -> holds t v -> append_value t v <> None.
Proof. exact append_defined. Qed.
Print Assumptions C44_runtime_defined.

Theorem C44_runtime_literal : forall L L' x, 0 <= L < 2 ^ 64 -> 0 <= L' < 2 ^ 64 -> append_lit L = Some x -> append_lit L' = Some x -> L = L'.
Proof. exact lit_inj. Qed.
Print Assumptions C44_runtime_literal.

(** For negative run-time values the claim is false: the sign is not counted and the last digit is cut off. *)
Theorem C44_negative_refuted : exists v v' x, holds t_int v /\ holds t_int v' /\ v <> v' /\ append_value t_int v = Some x /\ append_value t_int v' = Some x.
Proof. exact negative_refuted. Qed.
Print Assumptions C44_negative_refuted.

(** ** Examples *)

Example C44_max : mangle_value t_size (2 ^ 64 - 1) = Some [49;56;52;52;54;55;52;52;48;55;51;55;48;57;53;53;49;54;49;53].
Proof. vm_compute. reflexivity. Qed.
Example C44_zero : mangle_value t_int 0 = Some [48] /\ append_value t_int 0 = Some [48].
Proof. vm_compute. split; reflexivity. Qed.
Example C44_forty_two : scalar_name_lit 42 = Some [108; 105; 116; 95; 116; 60; 52; 50; 62] /\ append_lit 42 = Some [108; 105; 116; 60; 52; 50; 62] /\ append_value t_size 1000 = Some [49; 48; 48; 48].
Proof. vm_compute. repeat split. Qed.
Example C44_wide_literal : scalar_name_lit (2 ^ 31) = None /\ append_lit (2 ^ 63) <> None.
Proof. vm_compute. split; [reflexivity|discriminate]. Qed.
