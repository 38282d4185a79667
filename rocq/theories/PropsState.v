(** * C01-C05: states and compile-time arithmetic *)

From Verif Require Import StateProofs StateOrder.

(** ** C01 *)

Theorem C01_with_get : forall t v st, get t (with_ [(t, v)] st) = Some v.
Proof. exact lC01_with_get. Qed.

Theorem C01_with_other : forall t t' v st, t' <> t -> get t' (with_ [(t, v)] st) = get t' st.
Proof. exact lC01_with_other. Qed.

(** with<t1,..,tn>(v1,..,vn) for several distinct tags at once. *)
Theorem C01_with_many : forall items st t,
  NoDup (map fst items) ->
  (forall v, In (t, v) items -> get t (with_ items st) = Some v) /\
  (~ In t (map fst items) -> get t (with_ items st) = get t st).
Proof. exact lC01_with_many. Qed.

Theorem C01_remove : forall ts st t,
  (In t ts -> get t (remove ts st) = None) /\
  (~ In t ts -> get t (remove ts st) = get t st).
Proof. exact lC01_remove. Qed.

Theorem C01_filter : forall ts st t,
  (In t ts -> get t (filter_tags ts st) = get t st) /\
  (~ In t ts -> get t (filter_tags ts st) = None).
Proof. exact lC01_filter. Qed.

Example C01_ex :
  let st := with_ [(Idx 1, Dyn 5); (Len 1, Sta 9)] [(Idx 1, Sta 3); (Idx 2, Dyn 4)] in
  get (Idx 1) st = Some (Dyn 5) /\ get (Idx 2) st = Some (Dyn 4) /\ get (Len 1) st = Some (Sta 9)
  /\ get (Len 2) st = None /\ NoDup (map fst [(Idx 1, Dyn 5); (Len 1, Sta 9)]).
Proof. vm_compute. repeat split. repeat constructor; simpl; intuition discriminate. Qed.

(** ** C02 *)

Theorem C02_right_biased : forall a b t,
  (forall v, get t b = Some v -> get t (st_and a b) = Some v) /\
  (get t b = None -> get t (st_and a b) = get t a).
Proof. exact lC02_right_biased. Qed.

Theorem C02_assoc : forall a b c t, get t (st_and a (st_and b c)) = get t (st_and (st_and a b) c).
Proof. exact st_and_assoc. Qed.

Theorem C02_idem : forall a t, get t (st_and a a) = get t a.
Proof. exact st_and_idem. Qed.

Theorem C02_neutral : forall a t, get t (st_and [] a) = get t a /\ get t (st_and a []) = get t a.
Proof. exact (fun a t => conj (st_and_empty_l a t) (st_and_empty_r a t)). Qed.

Example C02_ex :
  get (Idx 1) (st_and [(Idx 1, Dyn 5); (Idx 2, Dyn 6)] [(Idx 1, Dyn 7)]) = Some (Dyn 7)
  /\ get (Idx 2) (st_and [(Idx 1, Dyn 5); (Idx 2, Dyn 6)] [(Idx 1, Dyn 7)]) = Some (Dyn 6).
Proof. vm_compute. repeat split. Qed.

(** ** C03 *)

(** [a == b] exactly when both bind the same tags, to equal (defined) numbers. *)
Theorem C03_eq_meaning : forall a b,
  st_eqb a b = true <->
  (forall t, has t a = has t b) /\
  (forall t x, get t a = Some x -> exists y n, get t b = Some y /\ vz x = Some n /\ vz y = Some n).
Proof. exact st_eqb_spec. Qed.

Theorem C03_eq_refl : forall a, defined a -> st_eqb a a = true.
Proof. exact st_eqb_refl. Qed.
Theorem C03_eq_sym : forall a b, st_eqb a b = true -> st_eqb b a = true.
Proof. exact st_eqb_sym. Qed.
Theorem C03_eq_trans : forall a b c, st_eqb a b = true -> st_eqb b c = true -> st_eqb a c = true.
Proof. exact st_eqb_trans. Qed.

(** [a <= b] exactly when every tag of [a] is bound in [b] to a number at least as large. *)
Theorem C03_le_meaning : forall a b,
  st_leb a b = true <->
  (forall t x, get t a = Some x ->
     exists y n m, get t b = Some y /\ vz x = Some n /\ vz y = Some m /\ n <= m).
Proof. exact st_leb_spec. Qed.

Theorem C03_le_refl : forall a, defined a -> st_leb a a = true.
Proof. exact st_leb_refl. Qed.
Theorem C03_le_trans : forall a b c, st_leb a b = true -> st_leb b c = true -> st_leb a c = true.
Proof. exact st_leb_trans. Qed.
Theorem C03_le_antisym : forall a b, st_leb a b = true -> st_leb b a = true -> st_eqb a b = true.
Proof. exact st_leb_antisym. Qed.
Theorem C03_lt : forall a b, st_ltb a b = true <-> st_leb a b = true /\ st_eqb a b = false.
Proof. exact lC03_lt. Qed.
(** [a < b] exactly when [a <= b] and some tag is bound differently; [a > b] and [a >= b] are the same with the sides exchanged. *)
Theorem C03_lt_meaning : forall a b, st_ltb a b = true <-> st_leb a b = true /\ ~ st_leb b a = true.
Proof. exact lC03_lt_meaning. Qed.
Theorem C03_exchanged : forall a b, (st_gtb a b = true <-> st_ltb b a = true) /\ (st_geb a b = true <-> st_leb b a = true).
Proof. exact lC03_exchanged. Qed.
Theorem C03_lt_trans : forall a b c, st_ltb a b = true -> st_ltb b c = true -> st_ltb a c = true.
Proof. exact lC03_lt_trans. Qed.

Example C03_ex :
  let a := [(Idx 1, Dyn 5); (Idx 2, Sta 6)] in let b := [(Idx 2, Dyn 6); (Idx 1, Dyn 5)] in
  st_eqb a b = true /\ st_leb [(Idx 1, Dyn 4)] a = true /\ st_ltb [(Idx 1, Dyn 4)] a = true
  /\ defined a.
Proof.
  intros a b. do 3 (try (split; [vm_compute; reflexivity|])). apply defined_check. vm_compute. reflexivity.
Qed.

(** ** C04 *)

(** For run-time values [a + b] is defined, binds exactly the tags of either operand, and each of
    them to the sum modulo 2^64, reading an absent tag as 0. *)
Theorem C04_add_pointwise : forall a b, dynamic a -> dynamic b ->
  exists c, st_add a b = Some c /\ pointwise Z.add a b c.
Proof. exact st_add_pointwise. Qed.

Theorem C04_sub_pointwise : forall a b, dynamic a -> dynamic b ->
  exists c, st_sub a b = Some c /\ pointwise Z.sub a b c.
Proof. exact st_sub_pointwise. Qed.

Theorem C04_neg_pointwise : forall a, dynamic a -> forall t, has t (st_neg a) = has t a /\
    forall x, rd0 t a = Some x -> rd0 t (st_neg a) = Some (u64 (- x)).
Proof. exact st_neg_pointwise. Qed.

Theorem C04_add_sub_cancel : forall a b c d,
  dynamic a -> dynamic b -> st_add a b = Some c -> dynamic c -> st_sub c b = Some d ->
  forall t, rd0 t d = rd0 t a.
Proof. exact add_sub_cancel. Qed.

(** With compile-time constants the law fails: the result keeps the left operand's constant. *)
Theorem C04_static_add_refuted : exists a b c t x y,
  st_add a b = Some c /\ rd0 t a = Some x /\ rd0 t b = Some y /\ rd0 t c <> Some (u64 (x + y)).
Proof.
  exists [(Idx 1, Sta 1)], [(Idx 1, Dyn 2)], [(Idx 1, Sta 1)], (Idx 1), 1, 2.
  vm_compute. repeat split. discriminate.
Qed.

Theorem C04_static_neg_refuted : exists a t x,
  rd0 t a = Some x /\ rd0 t (st_neg a) <> Some (u64 (- x)).
Proof. exists [(Idx 1, Sta 1)], (Idx 1), 1. vm_compute. repeat split. discriminate. Qed.

Example C04_ex :
  let a := [(Idx 1, Dyn 5); (Idx 2, Dyn 6)] in let b := [(Idx 2, Dyn 7); (Idx 3, Dyn 1)] in
  st_add a b = Some [(Idx 2, Dyn 13); (Idx 1, Dyn 5); (Idx 3, Dyn 1)] /\
  st_sub a b = Some [(Idx 2, Dyn 18446744073709551615); (Idx 1, Dyn 5); (Idx 3, Dyn 18446744073709551615)]
  /\ dynamic a.
Proof.
  intros a b. do 2 (split; [vm_compute; reflexivity|]). apply dynamic_check. vm_compute. reflexivity.
Qed.

(** ** C05 *)

(** Every static/dynamic combination of operands gives the number that run-time [size_t]
    arithmetic gives. *)
Theorem C05_add : forall a b x y, vz a = Some x -> vz b = Some y -> vz (vadd a b) = Some ((x + y) mod 2 ^ 64).
Proof. exact lC05_add. Qed.
Theorem C05_sub : forall a b x y, vz a = Some x -> vz b = Some y -> vz (vsub a b) = Some ((x - y) mod 2 ^ 64).
Proof. exact lC05_sub. Qed.
Theorem C05_mul : forall a b x y, vz a = Some x -> vz b = Some y -> vz (vmul a b) = Some ((x * y) mod 2 ^ 64).
Proof. exact vz_vmul. Qed.
Theorem C05_div : forall a b x y, vz a = Some x -> vz b = Some y -> y <> 0 -> vz (vdiv a b) = Some (x / y).
Proof. exact vz_vdiv. Qed.
Theorem C05_mod : forall a b x y, vz a = Some x -> vz b = Some y -> y <> 0 -> vz (vmod a b) = Some (x mod y).
Proof. exact vz_vmod. Qed.

(** A zero divisor is undefined unless the dividend is the constant 0. *)
Theorem C05_div_by_zero : forall a b x, vz a = Some x -> vz b = Some 0 ->
  vdiv a b = Undef \/ (is_sta 0 a = true /\ vdiv a b = Sta 0).
Proof. exact vdiv_by_zero. Qed.

Example C05_ex :
  vadd (Sta 0) (Dyn 7) = Dyn 7 /\ vmul (Dyn 7) (Sta 0) = Sta 0 /\ vdiv (Sta 7) (Dyn 2) = Dyn 3
  /\ vsub (Dyn 1) (Sta 2) = Dyn 18446744073709551615.
Proof. vm_compute. repeat split. Qed.

Print Assumptions C01_with_get.
Print Assumptions C01_with_other.
Print Assumptions C01_with_many.
Print Assumptions C01_remove.
Print Assumptions C01_filter.
Print Assumptions C02_right_biased.
Print Assumptions C02_assoc.
Print Assumptions C03_eq_meaning.
Print Assumptions C03_le_meaning.
Print Assumptions C03_le_antisym.
Print Assumptions C04_add_pointwise.
Print Assumptions C04_sub_pointwise.
Print Assumptions C04_neg_pointwise.
Print Assumptions C04_add_sub_cancel.
Print Assumptions C04_static_add_refuted.
Print Assumptions C04_static_neg_refuted.
Print Assumptions C05_add.
Print Assumptions C05_sub.
Print Assumptions C05_mul.
Print Assumptions C05_div.
Print Assumptions C05_mod.
Print Assumptions C05_div_by_zero.
Print Assumptions C02_idem.
Print Assumptions C02_neutral.
Print Assumptions C03_eq_refl.
Print Assumptions C03_eq_sym.
Print Assumptions C03_eq_trans.
Print Assumptions C03_le_refl.
Print Assumptions C03_le_trans.
Print Assumptions C03_lt.
Print Assumptions C03_lt_meaning.
Print Assumptions C03_exchanged.
Print Assumptions C03_lt_trans.
