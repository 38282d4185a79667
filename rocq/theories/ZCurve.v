(** * Z-curve index arithmetic

    Model of structs/zcurve.hpp 60-116.  All numbers are [size_t] (modulo 2^64). Definitions only. *)

From Verif Require Export Base.

Definition nthd (l : list Z) (i : nat) : Z := nth i l 0.

Fixpoint upd (l : list Z) (i : nat) (z : Z) : list Z :=
  match l, i with
  | [], _ => []
  | _ :: r, O => z :: r
  | x :: r, S i' => x :: upd r i' z
  end.

(** structs/zcurve.hpp 73-76: the extent of the current tile in dimension j. *)
Definition zc_extent (T size result : Z) : Z :=
  if Z.land size (u64 (- T)) =? result then u64 (Z.land (u64 (size - 1)) (T - 1) + 1) else T.

(** structs/zcurve.hpp 69-78: the product over all dimensions j other than i. *)
Definition zc_facet (level : nat) (i : nat) (sizes result : list Z) : Z :=
  fold_left (fun acc j =>
    u64 (acc * (if (j =? i)%nat then 1
                else zc_extent ((if (i <? j)%nat then 2 else 1) * 2 ^ Z.of_nat level)
                               (nthd sizes j) (nthd result j))))
    (seq 0 (List.length sizes)) 1.

(** structs/zcurve.hpp 67-83: one step of the inner loop; the state is (z, result). *)
Definition zc_step (level : nat) (sizes : list Z) (s : Z * list Z) (i : nat) : Z * list Z :=
  let '(z, result) := s in
  let half := u64 (Z.shiftl (zc_facet level i sizes result) (Z.of_nat level)) in
  if half <=? z then (z - half, upd result i (u64 (nthd result i + 2 ^ Z.of_nat level)))
  else (z, result).

(** structs/zcurve.hpp 66: the inner loop over the dimensions. *)
Definition zc_level (level : nat) (sizes : list Z) (s : Z * list Z) : Z * list Z :=
  fold_left (zc_step level sizes) (seq 0 (List.length sizes)) s.

(** structs/zcurve.hpp 65, 68: the outer loop; level = Levels - k - 1. *)
Fixpoint zc_levels (n : nat) (sizes : list Z) (s : Z * list Z) : Z * list Z :=
  match n with
  | O => s
  | S level => zc_levels level sizes (zc_level level sizes s)
  end.

(** structs/zcurve.hpp 60-88 *)
Definition zc_general (levels : nat) (z : Z) (sizes : list Z) : list Z :=
  snd (zc_levels levels sizes (z, map (fun _ => 0) sizes)).

(** structs/zcurve.hpp 90-102; [fuel] = 7 suffices since the period doubles from at least 1. *)
Fixpoint zc_rep_bits (fuel : nat) (period rep : Z) : Z :=
  match fuel with
  | O => rep
  | S f => if 64 <=? period then rep
           else zc_rep_bits f (2 * period) (Z.lor rep (u64 (Z.shiftl rep period)))
  end.

Fixpoint zc_num_iter (fuel : nat) (period : Z) : nat :=
  match fuel with
  | O => 0
  | S f => if 64 <=? period then 0 else S (zc_num_iter f (2 * period))
  end.

(** structs/zcurve.hpp 106-107: one iteration of the compaction. *)
Definition zc_special_iter (ndim : Z) (tmp : Z) (i : nat) : Z :=
  let tmp1 := Z.land tmp (zc_rep_bits 7 (Z.shiftl ndim (Z.of_nat i)) (2 ^ (2 ^ Z.of_nat i) - 1)) in
  Z.lor tmp1 (Z.shiftr tmp1 (Z.shiftl (ndim - 1) (Z.of_nat i))).

(** structs/zcurve.hpp 104-116.  For one dimension the final mask shifts by 64, which is
    undefined ([None]). *)
Definition zc_special (ndim d z : Z) : option Z :=
  let n := zc_num_iter 7 ndim in
  let tmp := fold_left (zc_special_iter ndim) (seq 0 n) (Z.shiftr z (ndim - d - 1)) in
  if 2 ^ Z.of_nat n <? 64 then Some (Z.land tmp (2 ^ (2 ^ Z.of_nat n) - 1)) else None.
