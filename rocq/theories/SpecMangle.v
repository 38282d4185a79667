(** * Specification: what a decimal text means *)

From Verif Require Export Mangle.

(** The number a text of decimal digits denotes, most significant digit first; [None] for the empty text
    and for texts with other characters.  [read_from n] continues a number whose leading digits denote [n]. *)
Fixpoint read_from (n : Z) (x : text) : option Z :=
  match x with
  | [] => Some n
  | c :: x => if (48 <=? c) && (c <=? 57) then read_from (10 * n + (c - 48)) x else None
  end.
Definition read_decimal (x : text) : option Z := match x with [] => None | _ => read_from 0 x end.

(** Without superfluous zeros in front. *)
Definition no_leading_zero (x : text) : Prop := match x with [] => False | [c] => True | c :: _ => c <> 48 end.

(** A C++ integer type: one to eight bytes. *)
Definition is_ity (t : ity) : Prop := 1 <= it_bytes t <= 8.
Definition holds (t : ity) (v : Z) : Prop := ity_min t <= v <= ity_max t.
