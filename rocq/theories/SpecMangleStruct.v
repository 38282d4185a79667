(** * The text of structures: specification

    Definitions only. *)

From Coq Require Import String.
From Verif Require Export MangleStruct SpecMangle.
Open Scope list_scope.
Open Scope Z_scope.

(** The element types in a structure. *)
Fixpoint scalars (s : struct) : list cty :=
  match s with
  | Scalar c => [c]
  | Tuple _ ts | Union ts => flat_map scalars ts
  | Vector _ t | View _ t => scalars t
  end.

(** Different types among [cs] are different to [scalar_name]: not, for example, [bool] and [unsigned char], which are both
    unsigned types with one byte. *)
Definition told_apart (tn : cty -> cppty) (cs : list cty) : Prop := forall c c', In c cs -> In c' cs -> tn c = tn c' -> c = c'.

(** The indices and lengths stored in a structure, from the outside to the inside. *)
Fixpoint stored (s : struct) : list val :=
  match s with
  | Scalar _ => []
  | Tuple _ ts | Union ts => flat_map stored ts
  | Vector _ t => stored t
  | View v t => view_values v ++ stored t
  end.

(** The same constant or the same run-time value. *)
Definition same_value (a b : val) : Prop := vstatic a = vstatic b /\ vz a = vz b.

(** What is needed for a text to exist: dimensions of type [char], named element types, constants that fit an [int], small enough levels,
    and no union.  With [values], the stored values are initialised. *)
Definition is_char (d : dim) : Prop := -128 <= d <= 127.
Definition small_constant (v : val) : Prop := match v with Sta z => u64 z < 2 ^ 31 | _ => True end.
Definition nameable_view (v : view) : Prop :=
  Forall small_constant (view_values v) /\
  match v with
  | VBcast d | VFix d _ | VSetLength d _ | VShift d _ | VSlice d _ _ | VSpan d _ _ | VStep d _ _ | VReverse d | VHoist d => is_char d
  | VBlocks d M m => Forall is_char [d; M; m]
  | VBlocksDyn d M m p => Forall is_char [d; M; m; p]
  | VBlocksSta d b M m _ => Forall is_char [d; b; M; m]
  | VMerge M m d => Forall is_char [M; m; d]
  | VZCurve sl gl d ds => Forall is_char (d :: ds) /\ Z.of_nat sl < W /\ Z.of_nat gl < W
  | VReorder ds => Forall is_char ds
  | VRename ps => Forall (fun p => is_char (fst p) /\ is_char (snd p)) ps
  | VJoin a b d => Forall is_char [a; b; d]
  end.
Fixpoint nameable (tn : cty -> cppty) (s : struct) : Prop :=
  match s with
  | Scalar c => match tn c with TInt t => 0 <= it_bytes t < 2 ^ 28 | TOther => False | _ => True end
  | Tuple d ts => is_char d /\ fold_right (fun t P => nameable tn t /\ P) True ts
  | Vector d t => is_char d /\ nameable tn t
  | View v t => nameable_view v /\ nameable tn t
  | Union _ => False
  end.

(** The same answer to a question: not available in both, or available with the same value in both. *)
Definition same_answer (x y : option val) : Prop :=
  match x, y with Some a, Some b => same_value a b | None, None => True | _, _ => False end.

(** ** Reading a text as C++

    The template parameters of the structures in the order of their declarations: layouts.hpp 24, 217; scalar.hpp 17; bcast.hpp 12;
    setters.hpp 12, 158; slice.hpp 17, 203, 355, 508, 681; blocks.hpp 16, 219, 480, 689; zcurve.hpp 132; views.hpp 134, 229, 422, 559. *)
Inductive targ := ADim (d : dim) | AStruct (s : struct) | AVal (v : val) | ANum (n : Z) | AElem (c : cty).
Definition view_args (v : view) (t : struct) : string * list targ :=
  match v with
  | VBcast d => ("bcast_t", [ADim d; AStruct t])
  | VFix d i => ("fix_t", [ADim d; AStruct t; AVal i])
  | VSetLength d n => ("set_length_t", [ADim d; AStruct t; AVal n])
  | VShift d s => ("shift_t", [ADim d; AStruct t; AVal s])
  | VSlice d s n => ("slice_t", [ADim d; AStruct t; AVal s; AVal n])
  | VSpan d s e => ("span_t", [ADim d; AStruct t; AVal s; AVal e])
  | VStep d s r => ("step_t", [ADim d; AStruct t; AVal s; AVal r])
  | VReverse d => ("reverse_t", [ADim d; AStruct t])
  | VBlocks d M m => ("into_blocks_t", [ADim d; ADim M; ADim m; AStruct t])
  | VBlocksDyn d M m p => ("into_blocks_dynamic_t", [ADim d; ADim M; ADim m; ADim p; AStruct t])
  | VBlocksSta d b M m n => ("into_blocks_static_t", [ADim d; ADim b; ADim M; ADim m; AStruct t; AVal n])
  | VMerge M m d => ("merge_blocks_t", [ADim M; ADim m; ADim d; AStruct t])
  | VZCurve sl gl d ds => ("merge_zcurve_t", ([ANum (Z.of_nat sl); ANum (Z.of_nat gl); ADim d; AStruct t] ++ map ADim ds)%list)
  | VReorder ds => ("reorder_t", AStruct t :: map ADim ds)
  | VHoist d => ("hoist_t", [ADim d; AStruct t])
  | VRename ps => ("rename_t", AStruct t :: flat_map (fun p => [ADim (fst p); ADim (snd p)]) ps)
  | VJoin a b d => ("join_t", [AStruct t; ADim a; ADim b; ADim d])
  end%string.
Definition template_args (s : struct) : option (string * list targ) :=
  match s with
  | Scalar c => Some ("scalar"%string, [AElem c])
  | Tuple d ts => Some ("tuple_t"%string, ADim d :: map AStruct ts)
  | Vector d t => Some ("vector_t"%string, [ADim d; AStruct t])
  | View v t => Some (view_args v t)
  | Union _ => None
  end.

(** [x1,x2,...,xn] *)
Fixpoint comma_list (xs : list text) : text := match xs with [] => [] | [x] => x | x :: r => x ++ txt "," ++ comma_list r end.

(** [is_elem tn x c]: [x] names the element type. *)
Definition is_elem (tn : cty -> cppty) (x : text) (c : cty) : Prop :=
  match tn c with
  | TInt t => exists n, read_decimal n = Some (8 * it_bytes t) /\ x = txt (if it_signed t then "int" else "uint") ++ n ++ txt "_t"
  | TFloat => x = txt "float" | TDouble => x = txt "double" | TLongDouble => x = txt "long double"
  | TOther => False
  end.
(** [is_val_type x v]: [x] names the type of the stored value [v]. *)
Definition is_val_type (x : text) (v : val) : Prop :=
  match v with
  | Sta z => exists n, read_decimal n = Some (u64 z) /\ x = txt "std::integral_constant<uint64_t," ++ n ++ txt ">"
  | _ => x = txt "uint64_t"
  end.

(** [is_type tn x s]: [x] names the type of [s]. *)
Inductive is_type (tn : cty -> cppty) : text -> struct -> Prop :=
| is_type_args s name args xs : template_args s = Some (name, args) -> are_args tn xs args -> is_type tn (txt name ++ txt "<" ++ comma_list xs ++ txt ">") s
with are_args (tn : cty -> cppty) : list text -> list targ -> Prop :=
| no_args : are_args tn [] []
| one_arg x xs a args : is_arg tn x a -> are_args tn xs args -> are_args tn (x :: xs) (a :: args)
with is_arg (tn : cty -> cppty) : text -> targ -> Prop :=
| arg_dim d : is_char d -> is_arg tn (txt "'" ++ [d] ++ txt "'") (ADim d)
| arg_struct x s : is_type tn x s -> is_arg tn x (AStruct s)
| arg_val x v : is_val_type x v -> is_arg tn x (AVal v)
| arg_num n z : read_decimal n = Some z -> is_arg tn (txt "(uint64_t)" ++ n) (ANum z)
| arg_elem x c : is_elem tn x c -> is_arg tn x (AElem c).

(** [is_val x v]: [x] is an expression with the value [v]. *)
Definition is_val (x : text) (v : val) : Prop :=
  match v with
  | Sta z => exists n, read_decimal n = Some (u64 z) /\ x = txt "lit<" ++ n ++ txt ">"
  | Dyn z => exists n, read_decimal n = Some (u64 z) /\ x = txt "uint64_t{" ++ n ++ txt "}"
  | Undef => False
  end.
(** [is_expr tn x s]: [x] initialises [s] from its members: the inner structures and the stored values in the order of [strict_contain<...>]. *)
Inductive is_expr (tn : cty -> cppty) : text -> struct -> Prop :=
| is_expr_members s ty ms : is_type tn ty s -> are_exprs tn ms (match s with Tuple _ ts | Union ts => ts | Vector _ t | View _ t => [t] | Scalar _ => [] end)
    (match s with View v _ => view_values v | _ => [] end) -> is_expr tn (ty ++ txt "{" ++ flat_map (fun m => m ++ txt ",") ms ++ txt "}") s
with are_exprs (tn : cty -> cppty) : list text -> list struct -> list val -> Prop :=
| vals_exprs ms vs : Forall2 is_val ms vs -> are_exprs tn ms [] vs
| struct_exprs m ms s ss vs : is_expr tn m s -> are_exprs tn ms ss vs -> are_exprs tn (m :: ms) (s :: ss) vs.
