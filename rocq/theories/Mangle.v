(** * Model of extra/mangle.hpp: the text of integers

    Definitions only.  A text is the list of its character codes. *)

From Verif Require Export Lib.

Definition text := list Z.

(** '0' and '-'. *)
Definition c_zero : Z := 48.
Definition c_minus : Z := 45.

(** mangle.hpp 50-63: [mangle_integral<T, V, Acc>].  The recursion ends after as many steps as [V] has
    decimal digits; [fuel] bounds it and is never reached (the number of bits is given).  The third case of
    the C++ template, a negative [V], has no specialisation: such a value does not compile. *)
Fixpoint mangle_integral (fuel : nat) (v : Z) (acc : text) : option text :=
  match fuel with
  | O => None
  | S n => if 10 <=? v then mangle_integral n (v / 10) (v mod 10 + c_zero :: acc)
           else if 0 <=? v then Some (v mod 10 + c_zero :: acc)
           else None
  end.

(** An integer type by its width in bytes and signedness. *)
Record ity := { it_bytes : Z; it_signed : bool }.
Definition ity_min (t : ity) : Z := if it_signed t then - 2 ^ (8 * it_bytes t - 1) else 0.
Definition ity_max (t : ity) : Z := 2 ^ (8 * it_bytes t - (if it_signed t then 1 else 0)) - 1.

(** [int], [std::size_t]. *)
Definition t_int := {| it_bytes := 4; it_signed := true |}.
Definition t_size := {| it_bytes := 8; it_signed := false |}.

(** mangle.hpp 44-67: [mangle_value<T, V>].  A value that [T] cannot hold would be a narrowing conversion of
    a template argument, which does not compile. *)
Definition mangle_value (t : ity) (v : Z) : option text :=
  if (ity_min t <=? v) && (v <=? ity_max t) then mangle_integral (Z.to_nat (8 * it_bytes t)) v [] else None.

(** The texts "lit_t<", ">", "lit<" and so on. *)
Definition s_lit_t : text := [108; 105; 116; 95; 116; 60].
Definition s_lit : text := [108; 105; 116; 60].
Definition s_gt : text := [62].

(** mangle.hpp 116-120: [scalar_name<lit_t<L>>]; the literal is a [std::size_t] and is passed on as [int]. *)
Definition scalar_name_lit (L : Z) : option text :=
  match mangle_value t_int L with Some x => Some (s_lit_t ++ x ++ s_gt) | None => None end.

(** mangle.hpp 167-184: [append_int(out, neg, u)].  [buff] has [3 * sizeof(U) + 1] characters, [ptr] is an
    index into it; writing below it is undefined behaviour, the outcome [None].  The loop runs at most once
    per decimal digit. *)
Record abuf := { ab_ptr : Z; ab_chars : text (* from [ptr] to the end *); ab_sz : Z }.

Definition ab_push (c : Z) (b : abuf) : option abuf :=
  if 0 <? ab_ptr b then Some {| ab_ptr := ab_ptr b - 1; ab_chars := c :: ab_chars b; ab_sz := ab_sz b |} else None.

Fixpoint append_digits (fuel : nat) (u : Z) (b : abuf) : option abuf :=
  match fuel with
  | O => None
  | S n => match ab_push (c_zero + u mod 10) b with
           | None => None
           | Some b => let b := {| ab_ptr := ab_ptr b; ab_chars := ab_chars b; ab_sz := ab_sz b + 1 |} in
                       if u / 10 =? 0 then Some b else append_digits n (u / 10) b
           end
  end.

Definition append_int (bytes : Z) (neg : bool) (u : Z) : option text :=
  match append_digits (Z.to_nat (8 * bytes)) u {| ab_ptr := bytes * 3 + 1; ab_chars := []; ab_sz := 0 |} with
  | None => None
  | Some b => match (if neg then ab_push c_minus b else Some b) with
              | None => None
              | Some b => Some (firstn (Z.to_nat (ab_sz b)) (ab_chars b))
              end
  end.

(** mangle.hpp 196-212: the digits between the braces of [append(out, t)] for an integral [t].  The
    conversion to the unsigned type is explicit. *)
Definition append_value (t : ity) (v : Z) : option text :=
  if it_signed t then
    if v =? ity_min t then append_int (it_bytes t) true (v mod 2 ^ (8 * it_bytes t))
    else append_int (it_bytes t) (v <? 0) ((if v <? 0 then - v else v) mod 2 ^ (8 * it_bytes t))
  else append_int (it_bytes t) false v.

(** mangle.hpp 214-219: [append] for a compile-time length. *)
Definition append_lit (L : Z) : option text :=
  match append_int 8 false L with Some x => Some (s_lit ++ x ++ s_gt) | None => None end.
