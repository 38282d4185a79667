(** * Values, compile-time arithmetic and states

    Model of  include/noarr/structures/base/utility.hpp  (arithmetic) and
    include/noarr/structures/base/state.hpp.  Paths in comments are relative to
    /repo/include/noarr/structures/.  This file contains definitions only. *)

From Coq Require Export List ZArith Bool.
Export ListNotations.
Open Scope Z_scope.

(** [std::size_t] arithmetic is modulo 2^64 (all supported 64-bit targets). *)
Definition W : Z := 2 ^ 64.
Definition u64 (z : Z) : Z := z mod W.

(** Dimension names (base/utility.hpp 13-38: [char] or [dim<'..'>], compared with ==). *)
Definition dim := Z.

Definition mem (d : dim) (ds : list dim) : bool := existsb (Z.eqb d) ds.

(** A value of an index or length.  [Sta z] is [std::integral_constant<size_t, z>] (part of the
    type, known at compile time), [Dyn z] is a run-time [std::size_t].  [Undef] is the result of a
    run-time computation whose behaviour is undefined in C++ (division by zero, over-wide shift);
    like [Dyn] its type is [std::size_t].
    Simplification: undefinedness is attached to the value, so an undefined value that is
    discarded (e.g. by [make_const<0> * x]) is not reported. *)
Inductive val := Sta (z : Z) | Dyn (z : Z) | Undef.

(** The number a value stands for. *)
Definition vz (v : val) : option Z :=
  match v with Sta z => Some (u64 z) | Dyn z => Some (u64 z) | Undef => None end.

(** Is the value part of the type? (the code tests [requires { T::value; }]) *)
Definition vstatic (v : val) : option Z :=
  match v with Sta z => Some (u64 z) | _ => None end.

(** The type [std::integral_constant<size_t, n>] exactly. *)
Definition is_sta (n : Z) (v : val) : bool :=
  match v with Sta z => u64 z =? n | _ => false end.

(** Fallback to the built-in operator on [size_t] through the implicit conversion. *)
Definition dyn2 (f : Z -> Z -> Z) (a b : val) : val :=
  match vz a, vz b with Some x, Some y => Dyn (u64 (f x y)) | _, _ => Undef end.

(** base/utility.hpp 486-499: operator+ *)
Definition vadd (a b : val) : val :=
  match a, b with
  | Sta x, Sta y => Sta (u64 (x + y))
  | _, _ => if is_sta 0 a then b else if is_sta 0 b then a else dyn2 Z.add a b
  end.

(** base/utility.hpp 501-514: operator- *)
Definition vsub (a b : val) : val :=
  match a, b with
  | Sta x, Sta y => Sta (u64 (x - y))
  | _, _ => if is_sta 0 a then dyn2 Z.sub (Dyn 0) b
            else if is_sta 0 b then a else dyn2 Z.sub a b
  end.

(** base/utility.hpp 516-529: operator* *)
Definition vmul (a b : val) : val :=
  match a, b with
  | Sta x, Sta y => Sta (u64 (x * y))
  | _, _ => if is_sta 0 a then Sta 0 else if is_sta 0 b then Sta 0 else dyn2 Z.mul a b
  end.

(** Built-in division/remainder: undefined for a zero divisor. *)
Definition dyn2nz (f : Z -> Z -> Z) (a b : val) : val :=
  match vz a, vz b with
  | Some x, Some y => if y =? 0 then Undef else Dyn (u64 (f x y))
  | _, _ => Undef
  end.

(** base/utility.hpp 531-539: operator/.  For two constants with divisor 0 the return type
    [make_const<A / B>] is ill-formed, the overload is discarded and the built-in run-time
    division is chosen. *)
Definition vdiv (a b : val) : val :=
  match a, b with
  | Sta x, Sta y => if u64 y =? 0 then Undef else Sta (u64 (u64 x / u64 y))
  | _, _ => if is_sta 0 a then Sta 0 else dyn2nz Z.div a b
  end.

(** base/utility.hpp 541-549: operator% *)
Definition vmod (a b : val) : val :=
  match a, b with
  | Sta x, Sta y => if u64 y =? 0 then Undef else Sta (u64 (u64 x mod u64 y))
  | _, _ => if is_sta 0 a then Sta 0 else dyn2nz Z.modulo a b
  end.

(** Built-in [-x] on [size_t] (used by base/state.hpp 348 and utility.hpp 508). *)
Definition vneg (a : val) : val := dyn2 Z.sub (Dyn 0) a.

(** Conversion to a run-time [std::size_t] ([const std::size_t x = v], structs/zcurve.hpp 196). *)
Definition vdyn (a : val) : val := match vz a with Some x => Dyn x | None => Undef end.

(** [std::size_t(a < b)] (structs/blocks.hpp 425). *)
Definition vlt (a b : val) : val :=
  match vz a, vz b with Some x, Some y => Dyn (if x <? y then 1 else 0) | _, _ => Undef end.

(** ** States (base/state.hpp) *)

(** Tags (base/state.hpp 25-53).  [Other] stands for any further tag type, e.g. the stripe index
    of interop/cuda_striped.cuh. *)
Inductive tag := Idx (d : dim) | Len (d : dim) | Other (n : Z).

Definition tag_eqb (a b : tag) : bool :=
  match a, b with
  | Idx x, Idx y => x =? y
  | Len x, Len y => x =? y
  | Other x, Other y => x =? y
  | _, _ => false
  end.

(** base/state.hpp 55-60, 159-160: a state is the sequence of its items. *)
Definition state := list (tag * val).

(** base/state.hpp 73-90, 176-181: first item with the tag. *)
Fixpoint get (t : tag) (st : state) : option val :=
  match st with
  | [] => None
  | (t', v) :: r => if tag_eqb t t' then Some v else get t r
  end.

(** base/state.hpp 168-170 *)
Definition has (t : tag) (st : state) : bool := match get t st with Some _ => true | None => false end.
Definition has_all (ts : list tag) (st : state) : bool := forallb (fun t => has t st) ts.

(** base/state.hpp 92-127, 183-188, 200-205: drop every item with one of the tags.
    Simplification: [items_restrict] re-reads each kept item with [get]; this is the same list
    whenever tags are not repeated. *)
Definition tag_mem (t : tag) (ts : list tag) : bool := existsb (tag_eqb t) ts.
Definition remove (ts : list tag) (st : state) : state :=
  List.filter (fun p => negb (tag_mem (fst p) ts)) st.

(** base/state.hpp 129-155, 207-220 *)
Definition filter_tags (ts : list tag) (st : state) : state :=
  List.filter (fun p => tag_mem (fst p) ts) st.

(** base/state.hpp 190-198, 222-228: remove the tags, then append the new items. *)
Definition with_ (items : list (tag * val)) (st : state) : state :=
  remove (map fst items) st ++ items.

(** base/state.hpp 335-338: operator& *)
Definition st_and (a b : state) : state :=
  with_ (flat_map (fun p => match get (fst p) b with Some v => [(fst p, v)] | None => [] end) b) a.

(** Constructing an item of a given type from a value: an [integral_constant] item is an empty
    class whose constructor ignores its argument (base/contain.hpp 72-111). *)
Definition as_type_of (old new : val) : val :=
  match old with Sta z => Sta z | _ => vdyn new end.

(** base/state.hpp 345-349: unary minus keeps the item types. *)
Definition st_neg (a : state) : state :=
  map (fun p => (fst p, as_type_of (snd p)
                          (match get (fst p) a with Some v => vneg v | None => Undef end))) a.

(** base/state.hpp 183-188 applied to a list of kept items that may come from another state:
    the item types are those of [kept], the values are read from [st]; [None] if a tag is
    missing. *)
Fixpoint items_restrict (kept : list (tag * val)) (st : state) : option state :=
  match kept with
  | [] => Some []
  | (t, old) :: r =>
      match get t st, items_restrict r st with
      | Some v, Some r' => Some ((t, as_type_of old v) :: r')
      | _, _ => None
      end
  end.

(** base/state.hpp 351-356 and 391-396: both operands have the same item list type. *)
Definition st_binop_same (f : val -> val -> val) (a b : state) : state :=
  map (fun p => (fst p, as_type_of (snd p)
                  (match get (fst p) a, get (fst p) b with
                   | Some x, Some y => f x y
                   | _, _ => Undef
                   end))) a.

(** base/state.hpp 370-389 (operator+ on different state types; also covers 351-368, see
    [st_add_same_type] in StateFacts.v for the agreement of the special overloads). *)
Definition st_binop_gen (f : val -> val -> val) (nb : state -> state) (a b : state) : option state :=
  match items_restrict (remove (map fst b) a) a, items_restrict (remove (map fst a) b) b with
  | Some a', Some b' =>
      let base := st_and a' (nb b') in
      let common := remove (map fst base) a in
      match items_restrict common a, items_restrict common b with
      | Some ca, Some cb => Some (st_and (st_binop_same f ca cb) base)
      | _, _ => None
      end
  | _, _ => None
  end.

Definition same_item_type (a b : tag * val) : bool :=
  tag_eqb (fst a) (fst b) &&
  match snd a, snd b with
  | Sta x, Sta y => u64 x =? u64 y
  | Sta _, _ | _, Sta _ => false
  | _, _ => true
  end.

Fixpoint same_state_type (a b : state) : bool :=
  match a, b with
  | [], [] => true
  | x :: a', y :: b' => same_item_type x y && same_state_type a' b'
  | _, _ => false
  end.

(** base/state.hpp 351-389: operator+ (overload resolution: same type, empty operand, general). *)
Definition st_add (a b : state) : option state :=
  match a, b with
  | _, [] => Some a
  | [], _ => Some b
  | _, _ => if same_state_type a b then Some (st_binop_same vadd a b)
            else st_binop_gen vadd (fun x => x) a b
  end.

(** base/state.hpp 391-427: operator- *)
Definition st_sub (a b : state) : option state :=
  match a, b with
  | _, [] => Some a
  | [], _ => Some (st_neg b)
  | _, _ => if same_state_type a b then Some (st_binop_same vsub a b)
            else st_binop_gen vsub st_neg a b
  end.

(** Comparison of values: both are converted to numbers.  [false] on undefined values. *)
Definition veqb (a b : val) : bool :=
  match vz a, vz b with Some x, Some y => x =? y | _, _ => false end.
Definition vleb (a b : val) : bool :=
  match vz a, vz b with Some x, Some y => x <=? y | _, _ => false end.

Definition get_rel (r : val -> val -> bool) (a b : state) (t : tag) : bool :=
  match get t a, get t b with Some x, Some y => r x y | _, _ => false end.

(** base/state.hpp 429-439: operator== *)
Definition st_eqb (a b : state) : bool :=
  forallb (fun p => has (fst p) b) a && forallb (fun p => has (fst p) a) b &&
  forallb (fun p => get_rel veqb a b (fst p)) a.

(** base/state.hpp 441-450: operator<= *)
Definition st_leb (a b : state) : bool :=
  forallb (fun p => has (fst p) b) a && forallb (fun p => get_rel vleb a b (fst p)) a.

(** base/state.hpp 452-465 *)
Definition st_geb (a b : state) : bool := st_leb b a.
Definition st_ltb (a b : state) : bool := st_leb a b && negb (st_eqb a b).
Definition st_gtb (a b : state) : bool := st_ltb b a.

(** ** Small helpers used throughout the model (no C++ counterpart) *)

Definition obind {A B} (o : option A) (f : A -> option B) : option B :=
  match o with Some a => f a | None => None end.
Notation "'do' x <- e ; f" := (obind e (fun x => f)) (at level 60, x pattern, right associativity).

(** [if constexpr (c)] with a compile-time condition that must itself be well-formed. *)
Definition oand (a b : option bool) : option bool :=
  match a, b with Some x, Some y => Some (x && y) | _, _ => None end.

Fixpoint oall (l : list (option bool)) : option bool :=
  match l with [] => Some true | x :: r => oand x (oall r) end.

Definition omap {A B} (f : A -> option B) : list A -> option (list B) :=
  fix go (l : list A) : option (list B) :=
  match l with
  | [] => Some []
  | x :: r => match f x, go r with Some y, Some ys => Some (y :: ys) | _, _ => None end
  end.

Definition ojoin {A} (o : option (option A)) : option A := match o with Some x => x | None => None end.

(** [requires (cond)] in front of a member function. *)
Definition guard {A} (c : option bool) (x : option A) : option A :=
  match c with Some true => x | _ => None end.

(** [std::get<z>] / [std::tuple_element_t<z, ..>]: out of range is a compile error. *)
Fixpoint nthz {A} (l : list A) (z : Z) : option A :=
  match l with
  | [] => None
  | x :: r => if z =? 0 then Some x else nthz r (z - 1)
  end.

(** 0, 1, .., n-1 *)
Definition zseq (n : Z) : list Z := map Z.of_nat (seq 0 (Z.to_nat n)).
