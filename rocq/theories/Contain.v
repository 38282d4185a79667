(** * Storage of the members of a structure (base/contain.hpp)

    Structures, bags, traversers and planners hold their members in [contain], which gives no storage to members
    of empty types.  Definitions only.

    Objects are modelled down to bytes: a class is a list of members, and its layout (size, alignment, offsets) follows
    the rule of the C++ standard that two objects of the same type never share an address, as the Itanium ABI applies it. *)
From Coq Require Import ZArith List Bool Lia.
From Verif Require Import Base Sig Struct.
Import ListNotations.
Open Scope Z_scope.

(** The types that can be members.
    [Leaf size align]: a type with bytes of its own (std::size_t, a pointer, a lambda with captures).
    [Const id]: an empty class without bases (std::integral_constant<std::size_t, id>, a lambda without captures).
    [Class name ms]: a class that derives from [contain<ms...>] and adds no fields, as all structures do
    (structs/setters.hpp 14, structs/layouts.hpp 25, 218, interop/bag.hpp 114, ...). *)
Inductive cls :=
| Leaf (size align : Z)
| Const (id : Z)
| Class (name : list Z) (ms : list cls).

(** std::is_empty_v.  A class is empty if all its members are: the cases of contain_impl without fields
    (base/contain.hpp 72-111, 134-140) derive from one another only. *)
Fixpoint empty_cls (c : cls) : bool :=
  match c with
  | Leaf _ _ => false
  | Const _ => true
  | Class _ ms => forallb empty_cls ms
  end.

(** Identity of types. *)
Fixpoint list_eqb {A} (e : A -> A -> bool) (l l2 : list A) : bool :=
  match l, l2 with
  | [], [] => true
  | x :: l, y :: l2 => e x y && list_eqb e l l2
  | _, _ => false
  end.

Fixpoint cls_eqb (c c2 : cls) {struct c} : bool :=
  match c, c2 with
  | Leaf s a, Leaf s2 a2 => (s =? s2) && (a =? a2)
  | Const i, Const j => i =? j
  | Class n ms, Class n2 ms2 => list_eqb Z.eqb n n2 &&
      (fix go l l2 := match l, l2 with
        | [], [] => true
        | x :: l, y :: l2 => cls_eqb x y && go l l2
        | _, _ => false
        end) ms ms2
  | _, _ => false
  end.

(** The layout of a class: sizeof, alignof, and where its subobjects of empty class types lie.  Such a subobject is always some
    [contain_impl<Ts...>] that is a base of another one, so its type is named by the list [Ts]. *)
Record layout := Layout { lsize : Z; lalign : Z; lempty : list (Z * list cls) }.

(** The smallest multiple of [a] that is not below [x]. *)
Definition round_up (x a : Z) : Z := (x + a - 1) / a * a.

(** Two subobjects of the same type at the same address: not allowed. *)
Definition clash (l l2 : list (Z * list cls)) : bool :=
  existsb (fun x => existsb (fun y => (fst x =? fst y) && list_eqb cls_eqb (snd x) (snd y)) l2) l.

Definition moved (o : Z) (l : list (Z * list cls)) : list (Z * list cls) := map (fun x => (o + fst x, snd x)) l.

(** Where the field of type [contain_impl<T>] lies if [base] is the layout of the empty base class: at 0, unless it contains
    a subobject of the type of one of the bases there; then at the next address with the right alignment
    (base/contain.hpp 49-70). *)
Definition field_at (base t : layout) : Z := if clash (lempty base) (lempty t) then lalign t else 0.

Section lays.
Variable lay : cls -> layout.

(** [contain_impl<Ts...>].
    No members: base/contain.hpp 134-140.
    One member: 95-111 (empty) and 113-132 (not empty).
    First one empty: 72-93, the rest is a base.
    First one not empty, the others empty: 49-70, the rest is an empty base and the first one a field.
    Otherwise: 24-47, two fields. *)
Fixpoint lays (ms : list cls) : layout :=
  match ms with
  | [] => Layout 1 1 [(0, [])]
  | t :: ts =>
      match ts with
      | [] => if empty_cls t then Layout 1 1 [(0, [t])] else lay t
      | _ :: _ =>
          let r := lays ts in
          if empty_cls t then Layout (lsize r) (lalign r) ((if forallb empty_cls ts then [(0, ms)] else []) ++ lempty r)
          else if forallb empty_cls ts then
            let o := field_at r (lay t) in
            Layout (round_up (o + lsize (lay t)) (lalign (lay t))) (lalign (lay t)) (lempty r ++ moved o (lempty (lay t)))
          else
            let o := round_up (lsize (lay t)) (lalign r) in
            let a := Z.max (lalign (lay t)) (lalign r) in
            Layout (round_up (o + lsize r) a) a (lempty (lay t) ++ moved o (lempty r))
      end
  end.
End lays.

Fixpoint lay (c : cls) : layout :=
  match c with
  | Leaf s a => Layout s a []
  | Const _ => Layout 1 1 []
  | Class _ ms => lays lay ms
  end.

(** sizeof and alignof. *)
Definition sizeof (c : cls) : Z := lsize (lay c).
Definition alignof (c : cls) : Z := lalign (lay c).

(** The value of an object: bytes, nothing, or the values of the members. *)
Inductive obj :=
| OLeaf (bytes : list Z)
| OConst
| OClass (vs : list obj).

(** [T()] for an empty type (base/contain.hpp 88, 109). *)
Fixpoint made (c : cls) : obj :=
  match c with
  | Leaf _ _ => OLeaf []
  | Const _ => OConst
  | Class _ ms => OClass (map made ms)
  end.

Definition mem := Z -> Z.

(** Copying bytes to and from memory. *)
Fixpoint poke (bs : list Z) (a : Z) (m : mem) : mem :=
  match bs with
  | [] => m
  | b :: bs => poke bs (a + 1) (fun x => if x =? a then b else m x)
  end.

Definition peek (n a : Z) (m : mem) : list Z := map (fun k => m (a + Z.of_nat k)) (seq 0 (Z.to_nat n)).

Section puts.
Variable put : cls -> obj -> Z -> mem -> mem.

(** The constructor of [contain_impl<Ts...>] at address [a], given one argument for each member: base/contain.hpp 28-31,
    53-55, 78-81, 101-103, 119-121.  Arguments for empty members are not looked at. *)
Fixpoint puts (ms : list cls) (vs : list obj) (a : Z) (m : mem) : mem :=
  match ms, vs with
  | t :: ts, v :: vs =>
      match ts with
      | [] => if empty_cls t then m else put t v a m
      | _ :: _ =>
          if empty_cls t then puts ts vs a m
          else if forallb empty_cls ts then put t v (a + field_at (lays lay ts) (lay t)) m
          else puts ts vs (a + round_up (lsize (lay t)) (lalign (lays lay ts))) (put t v a m)
      end
  | _, _ => m
  end.
End puts.

(** Copying an object of class [c] and value [v] to address [a]. *)
Fixpoint put (c : cls) (v : obj) (a : Z) (m : mem) : mem :=
  match c, v with
  | Leaf _ _, OLeaf bs => poke bs a m
  | Class _ ms, OClass vs => puts put ms vs a m
  | _, _ => m
  end.

Section gets.
Variable read : cls -> Z -> mem -> obj.

(** [get<I>()] of the [contain_impl<Ts...>] at address [a]: base/contain.hpp 33-42, 57-66, 83-92, 105-110, 123-128. *)
Fixpoint get_member (ms : list cls) (i : nat) (a : Z) (m : mem) : option obj :=
  match ms with
  | [] => None
  | t :: ts =>
      match ts with
      | [] => match i with O => Some (if empty_cls t then made t else read t a m) | S _ => None end
      | _ :: _ =>
          match i with
          | O => Some (if empty_cls t then made t
                       else if forallb empty_cls ts then read t (a + field_at (lays lay ts) (lay t)) m
                       else read t a m)
          | S i => if empty_cls t then get_member ts i a m
                   else if forallb empty_cls ts then get_member ts i a m
                   else get_member ts i (a + round_up (lsize (lay t)) (lalign (lays lay ts))) m
          end
      end
  end.
End gets.

(** The value of the object of class [c] at address [a]. *)
Fixpoint read (c : cls) (a : Z) (m : mem) : obj :=
  match c with
  | Leaf s _ => OLeaf (peek s a m)
  | Const _ => OConst
  | Class _ ms => OClass (map (fun i => match get_member read ms i a m with Some v => v | None => OConst end) (seq 0 (length ms)))
  end.

(** The bytes that hold the leaves of an object of class [c] at address [a], as (address, size, alignment). *)
Section parts.
Variable parts : cls -> Z -> list (Z * Z * Z).
Fixpoint parts_of (ms : list cls) (a : Z) : list (Z * Z * Z) :=
  match ms with
  | [] => []
  | t :: ts =>
      match ts with
      | [] => if empty_cls t then [] else parts t a
      | _ :: _ =>
          if empty_cls t then parts_of ts a
          else if forallb empty_cls ts then parts t (a + field_at (lays lay ts) (lay t))
          else parts t a ++ parts_of ts (a + round_up (lsize (lay t)) (lalign (lays lay ts)))
      end
  end.
End parts.

Fixpoint parts (c : cls) (a : Z) : list (Z * Z * Z) :=
  match c with
  | Leaf s al => [(a, s, al)]
  | Const _ => []
  | Class _ ms => parts_of parts ms a
  end.

(** [contain_cat] (base/contain.hpp 163-184), on the members of its arguments: the first two are joined until one is left.
    A single argument is returned as it is.  Simplification: a result with exactly one member that is itself a [contain] (not a
    class derived from it) is left out; the deduction guide in 148-149 would not wrap it again. *)
Definition contain_join {A} (c1 c2 : list A) : list A :=
  map snd (combine (seq 0 (length c1)) c1) ++ map snd (combine (seq 0 (length c2)) c2).

Fixpoint contain_cat_from {A} (c : list A) (cs : list (list A)) : list A :=
  match cs with
  | [] => c
  | c2 :: cs => contain_cat_from (contain_join c c2) cs
  end.

Definition contain_cat {A} (cs : list (list A)) : list A :=
  match cs with
  | [] => []
  | c :: cs => contain_cat_from c cs
  end.

(** ** The members of the structures *)

(** A value that a structure stores: std::integral_constant or std::size_t. *)
Definition val_cls (v : val) : cls := match v with Sta n => Const (u64 n) | _ => Leaf 8 8 end.

(** The stored values of a view, in the order of its members after the structure below: structs/setters.hpp 14 and 160,
    structs/slice.hpp 18, 204, 356, 509, structs/blocks.hpp 482.  All other views store only the structure below. *)
Definition view_vals (v : view) : list val :=
  match v with
  | VFix _ i => [i]
  | VSetLength _ l => [l]
  | VShift _ s => [s]
  | VSlice _ s n => [s; n]
  | VSpan _ s e => [s; e]
  | VStep _ s r => [s; r]
  | VBlocksSta _ _ _ _ ml => [ml]
  | _ => []
  end.

(** The name of the template of a view with its dimensions. *)
Definition view_name (v : view) : list Z :=
  match v with
  | VBcast d => [0; d]
  | VFix d _ => [1; d]
  | VSetLength d _ => [2; d]
  | VShift d _ => [3; d]
  | VSlice d _ _ => [4; d]
  | VSpan d _ _ => [5; d]
  | VStep d _ _ => [6; d]
  | VReverse d => [7; d]
  | VBlocks d M m => [8; d; M; m]
  | VBlocksDyn d M m p => [9; d; M; m; p]
  | VBlocksSta d b M m _ => [10; d; b; M; m]
  | VMerge M m d => [11; M; m; d]
  | VZCurve sl gl d ds => 12 :: Z.of_nat sl :: Z.of_nat gl :: d :: ds
  | VReorder ds => 13 :: ds
  | VHoist d => [14; d]
  | VRename ps => 15 :: flat_map (fun p => [fst p; snd p]) ps
  | VJoin a b d => [16; a; b; d]
  end.

(** The class of a structure: structs/scalar.hpp 18 (no members), structs/layouts.hpp 25 and 218, extra/traverser.hpp 106. *)
Fixpoint struct_cls (s : struct) : cls :=
  match s with
  | Scalar e => Class [100; ct_id e; ct_size e; ct_align e] []
  | Tuple d ts => Class [101; d] (map struct_cls ts)
  | Vector d t => Class [102; d] [struct_cls t]
  | View v t => Class (103 :: view_name v) (struct_cls t :: map val_cls (view_vals v))
  | Union ts => Class [104] (map struct_cls ts)
  end.

(** The object of a structure: each std::size_t as 8 bytes. *)
Fixpoint bytes_of (n : nat) (z : Z) : list Z :=
  match n with
  | O => []
  | S n => z mod 256 :: bytes_of n (z / 256)
  end.

Definition val_obj (v : val) : obj :=
  match v with
  | Sta _ => OConst
  | Dyn z => OLeaf (bytes_of 8 (u64 z))
  | Undef => OLeaf (bytes_of 8 0)
  end.

Fixpoint struct_obj (s : struct) : obj :=
  match s with
  | Scalar _ => OClass []
  | Tuple _ ts => OClass (map struct_obj ts)
  | Vector _ t => OClass [struct_obj t]
  | View v t => OClass (struct_obj t :: map val_obj (view_vals v))
  | Union ts => OClass (map struct_obj ts)
  end.
