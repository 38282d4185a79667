(** * Words for the storage of members (C53) *)
From Coq Require Import ZArith List Bool.
From Verif Require Import Base Struct Contain.
Import ListNotations.
Open Scope Z_scope.

(** Types as C++ has them: alignments are powers of two and divide the sizes. *)
Inductive a_type : cls -> Prop :=
| a_leaf k n : 0 <= k -> 0 < n -> a_type (Leaf (n * 2 ^ k) (2 ^ k))
| a_const i : a_type (Const i)
| a_class n ms : Forall a_type ms -> a_type (Class n ms).

(** A value of a type. *)
Inductive is_a : cls -> obj -> Prop :=
| is_leaf s al bs : Z.of_nat (length bs) = s -> is_a (Leaf s al) (OLeaf bs)
| is_const i : is_a (Const i) OConst
| is_class n ms vs : Forall2 is_a ms vs -> is_a (Class n ms) (OClass vs).

(** An object of class [c] and value [v] stands at address [a] once its members have been read one by one. *)
Definition stands (c : cls) (v : obj) (a : Z) (m : mem) : Prop := read c a m = v.

(** The memory outside of [from, from + n) is the same. *)
Definition untouched_but (from n : Z) (m m2 : mem) : Prop := forall x, ~ (from <= x < from + n) -> m2 x = m x.

(** Parts do not overlap, lie in [from, from + n) and are aligned. *)
Definition part_fits (from n : Z) (p : Z * Z * Z) : Prop :=
  let '(a, s, al) := p in from <= a /\ a + s <= from + n /\ a mod al = 0.
Definition parts_apart (p q : Z * Z * Z) : Prop :=
  let '(a, s, _) := p in let '(b, t, _) := q in a + s <= b \/ b + t <= a.

(** All leaves are std::size_t. *)
Inductive words : cls -> Prop :=
| w_leaf : words (Leaf 8 8)
| w_const i : words (Const i)
| w_class n ms : Forall words ms -> words (Class n ms).

(** How many. *)
Fixpoint word_count (c : cls) : Z :=
  match c with
  | Leaf _ _ => 1
  | Const _ => 0
  | Class _ ms => fold_right Z.add 0 (map word_count ms)
  end.

(** The members of empty types that are held anywhere inside. *)
Fixpoint empties (c : cls) : list cls :=
  match c with
  | Class _ ms => flat_map (fun m => if empty_cls m then [m] else empties m) ms
  | _ => []
  end.

(** The lengths, indices and bounds that a structure was made with. *)
Definition numbers_of_view (v : view) : list val :=
  match v with
  | VFix _ index => [index]
  | VSetLength _ length => [length]
  | VShift _ start => [start]
  | VSlice _ start length => [start; length]
  | VSpan _ start end_ => [start; end_]
  | VStep _ start stride => [start; stride]
  | VBlocksSta _ _ _ _ block_length => [block_length]
  | VBcast _ | VReverse _ | VBlocks _ _ _ | VBlocksDyn _ _ _ _ | VMerge _ _ _ | VZCurve _ _ _ _ | VReorder _ | VHoist _ | VRename _ | VJoin _ _ _ => []
  end.
Fixpoint numbers (s : struct) : list val :=
  match s with
  | Scalar _ => []
  | Tuple _ ts | Union ts => flat_map numbers ts
  | Vector _ t => numbers t
  | View v t => numbers t ++ numbers_of_view v
  end.

(** Each of them is a number that a std::size_t can hold. *)
Definition is_word (v : val) : Prop := match v with Sta z | Dyn z => 0 <= z < W | Undef => False end.

(** The number of run-time values of a structure. *)
Definition dynamic (v : val) : bool := match v with Sta _ => false | _ => true end.
Definition dyn_count (s : struct) : Z := Z.of_nat (length (filter dynamic (numbers s))).
