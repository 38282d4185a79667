(** * Specification: what a bag and a serialised structure should be *)

From Verif Require Export SpecTrav SpecMangle Bag.

(** The structure is used as documented; lengths are inside the structure. *)
Definition sound_struct (s : struct) : Prop :=
  swf s = true /\ lenok s nolens /\ (forall a, good s nolens a) /\ isize s nolens < W.

(** The data of the bag are as large as the structure says. *)
Definition enough_data (b : bag) : Prop :=
  exists v n, get_size (bg_struct b) [] = Some v /\ vz v = Some n /\ n <= Z.of_nat (length (bg_data b)).

(** A state that names an element by indices only. *)
Definition element (s : struct) (st : state) : Prop := (exists p, names_element s st p) /\ forall d, get (Len d) st = None.

(** Two states name the same element. *)
Definition same_element (s : struct) (st st' : state) : Prop := dims_of s st = dims_of s st' /\ index_list s st = index_list s st'.

Definition is_byte (x : byte) : Prop := 0 <= x < 256.

(** Writing a value of type [c] as text and reading it back, followed by a line break and anything else,
    gives the value and stops at the line break; a line break in front is skipped. *)
Definition reads_back (print : cty -> bytes -> text) (scan : cty -> text -> option (bytes * text)) (c : cty) : Prop :=
  (forall v x, Forall is_byte v -> Z.of_nat (length v) = ct_size c -> scan c (print c v ++ 10 :: x) = Some (v, 10 :: x)) /\
  (forall x, scan c (10 :: x) = scan c x).

(** The traversals of the two structures visit the same states in the same order. *)
Definition same_traversal (s1 s2 : struct) (l : list state) : Prop :=
  for_each (traverser [s1]) [] = Done l /\ exists l2, for_each (traverser [s2]) [] = Done l2 /\ Forall2 same_get l l2.

(** Unsigned little-endian integers as decimal text: what [operator<<] and [operator>>] do for them. *)
Fixpoint le_value (v : bytes) : Z := match v with [] => 0 | x :: v => x + 256 * le_value v end.
Fixpoint le_bytes (n : nat) (z : Z) : bytes := match n with O => [] | S n => z mod 256 :: le_bytes n (z / 256) end.
Definition print_uint (c : cty) (v : bytes) : text := match append_int (ct_size c) false (le_value v) with Some x => x | None => [] end.

Definition is_space (c : Z) : bool := (c =? 32) || ((9 <=? c) && (c <=? 13)).
Definition is_digit (c : Z) : bool := (48 <=? c) && (c <=? 57).
Fixpoint skip_spaces (x : text) : text := match x with [] => [] | c :: r => if is_space c then skip_spaces r else x end.
Fixpoint take_digits (x : text) : text * text :=
  match x with [] => ([], []) | c :: r => if is_digit c then let '(d, rest) := take_digits r in (c :: d, rest) else ([], x) end.
Definition scan_uint (c : cty) (x : text) : option (bytes * text) :=
  let '(d, rest) := take_digits (skip_spaces x) in
  match read_decimal d with
  | Some z => if z <? 2 ^ (8 * ct_size c) then Some (le_bytes (Z.to_nat (ct_size c)) z, rest) else None
  | None => None
  end.

(** Characters ([char], and [std::uint8_t]) are written and read as they are; reading skips white space. *)
Definition print_char (c : cty) (v : bytes) : text := v.
Definition scan_char (c : cty) (x : text) : option (bytes * text) :=
  match skip_spaces x with [] => None | y :: rest => Some ([y], rest) end.
