(** * Model of extra/mangle.hpp: the text of structures

    Definitions only. *)

From Coq Require Import Ascii String.
From Verif Require Export Mangle Struct.

(** The character codes of a text written as a string. *)
Definition txt (s : string) : text := map (fun c => Z.of_nat (nat_of_ascii c)) (list_ascii_of_string s).

(** base/utility.hpp 143-163, 363-364: [integer_sequence_concat_sep] with the separator [sep]: the separator is put between two
    texts unless one of them is empty; without texts there is no specialisation. *)
Definition concat2 (sep a b : text) : text := match a, b with _ :: _, _ :: _ => a ++ sep ++ b | _, _ => a ++ b end.
Definition concat_sep (sep : text) (xs : list text) : option text :=
  match xs with [] => None | x :: r => Some (fold_left (concat2 sep) r x) end.

(** The C++ types that may be elements of a structure. *)
Inductive cppty := TInt (t : ity) | TFloat | TDouble | TLongDouble | TOther.

(** mangle.hpp 75-107: [scalar_name<T>]; there is none for other types. *)
Definition scalar_name (t : cppty) : option text :=
  match t with
  | TInt t => do x <- mangle_value t_int (8 * it_bytes t); Some (txt (if it_signed t then "int" else "uint") ++ x ++ txt "_t")
  | TFloat => Some (txt "float")
  | TDouble => Some (txt "double")
  | TLongDouble => Some (txt "long double")
  | TOther => None
  end.

(** mangle.hpp 108-116: the type of a stored index or length, [std::size_t] or [std::integral_constant<std::size_t, L>] (state.hpp
    292-321 leaves no other types).  The constant is passed on as [int]. *)
Definition val_name (v : val) : option text :=
  match v with
  | Sta z => do n <- scalar_name (TInt t_size); do x <- mangle_value t_int (u64 z); Some (txt "std::integral_constant<" ++ n ++ txt "," ++ x ++ txt ">")
  | _ => scalar_name (TInt t_size)
  end.

(** mangle.hpp 132-150: [mangle_param]: type, value (a [std::size_t]) and dimension parameters.  Only dimensions of type [char] have a
    text. *)
Definition value_param (n : Z) : option text :=
  do t <- scalar_name (TInt t_size); do x <- mangle_value t_size n; Some (txt "(" ++ t ++ txt ")" ++ x).
Definition dim_param (d : dim) : option text :=
  if (-128 <=? d) && (d <=? 127) then Some (txt "'" ++ [d] ++ txt "'") else None.

(** mangle.hpp 152-158: [mangle_desc] *)
Definition mangle_desc (name : text) (ps : list (option text)) : option text :=
  do ps <- omap (fun p => p) ps; do x <- concat_sep (txt ",") ps; Some (name ++ txt "<" ++ x ++ txt ">").

(** [name] and [params] of each view over a structure with the text [t]: bcast.hpp 16-17; setters.hpp 17-18, 163-164; slice.hpp 21-22,
    207-208, 359-360, 512-513, 685-686; blocks.hpp 21-22, 224-226, 485-487, 694-695; zcurve.hpp 137-139; views.hpp 139-140, 233-234,
    443-444, 564-565. *)
Definition view_name (v : view) : text :=
  txt (match v with
       | VBcast _ => "bcast_t" | VFix _ _ => "fix_t" | VSetLength _ _ => "set_length_t" | VShift _ _ => "shift_t" | VSlice _ _ _ => "slice_t"
       | VSpan _ _ _ => "span_t" | VStep _ _ _ => "step_t" | VReverse _ => "reverse_t" | VBlocks _ _ _ => "into_blocks_t"
       | VBlocksDyn _ _ _ _ => "into_blocks_dynamic_t" | VBlocksSta _ _ _ _ _ => "into_blocks_static_t" | VMerge _ _ _ => "merge_blocks_t"
       | VZCurve _ _ _ _ => "merge_zcurve_t" | VReorder _ => "reorder_t" | VHoist _ => "hoist_t" | VRename _ => "rename_t" | VJoin _ _ _ => "join_t" end).
Definition view_params (v : view) (t : option text) : list (option text) :=
  match v with
  | VBcast d | VReverse d | VHoist d => [dim_param d; t]
  | VFix d i => [dim_param d; t; val_name i]
  | VSetLength d n => [dim_param d; t; val_name n]
  | VShift d s => [dim_param d; t; val_name s]
  | VSlice d s n | VSpan d s n | VStep d s n => [dim_param d; t; val_name s; val_name n]
  | VBlocks d M m => [dim_param d; dim_param M; dim_param m; t]
  | VBlocksDyn d M m p => [dim_param d; dim_param M; dim_param m; dim_param p; t]
  | VBlocksSta d b M m n => [dim_param d; dim_param b; dim_param M; dim_param m; t; val_name n]
  | VMerge M m d => [dim_param M; dim_param m; dim_param d; t]
  | VZCurve sl gl d ds => [value_param (Z.of_nat sl); value_param (Z.of_nat gl); dim_param d; t] ++ map dim_param ds
  | VReorder ds => t :: map dim_param ds
  | VRename ps => t :: map dim_param (flat_map (fun p => [fst p; snd p]) ps)
  | VJoin a b d => [t; dim_param a; dim_param b; dim_param d]
  end.

(** mangle.hpp 36-38: [mangle<T>].  [tn] gives the C++ type of the elements.  scalar.hpp 21-22; layouts.hpp 27-28, 220-221.  The union of
    a traverser has no name. *)
Fixpoint mangle (tn : cty -> cppty) (s : struct) : option text :=
  match s with
  | Scalar c => mangle_desc (txt "scalar") [scalar_name (tn c)]
  | Tuple d ts => mangle_desc (txt "tuple_t") (dim_param d :: map (mangle tn) ts)
  | Vector d t => mangle_desc (txt "vector_t") [dim_param d; mangle tn t]
  | View v t => mangle_desc (view_name v) (view_params v (mangle tn t))
  | Union _ => None
  end.

(** The stored values of a view, after its sub-structure: bcast.hpp 13; setters.hpp 14, 160; slice.hpp 18, 204, 356, 509, 682; blocks.hpp 18,
    221, 482, 691; zcurve.hpp 134; views.hpp 136, 230, 424, 561. *)
Definition view_values (v : view) : list val :=
  match v with
  | VFix _ x | VSetLength _ x | VShift _ x | VBlocksSta _ _ _ _ x => [x]
  | VSlice _ x y | VSpan _ x y | VStep _ x y => [x; y]
  | _ => []
  end.

(** mangle.hpp 198-219: [append] of a stored value.  An uninitialised one must not be read. *)
Definition append_val (v : val) : option text :=
  match v with
  | Sta z => append_lit (u64 z)
  | Dyn z => do n <- scalar_name (TInt t_size); do x <- append_value t_size (u64 z); Some (n ++ txt "{" ++ x ++ txt "}")
  | Undef => None
  end.

(** mangle.hpp 163-166, 187-196: [append] of a structure with the members [ms]: each one is followed by a comma. *)
Definition append_struct (ty : option text) (ms : list (option text)) : option text :=
  do ty <- ty; do ms <- omap (fun m => m) ms; Some (ty ++ txt "{" ++ flat_map (fun m => m ++ txt ",") ms ++ txt "}").

(** mangle.hpp 225-230: [mangle_expr]. *)
Fixpoint mangle_expr (tn : cty -> cppty) (s : struct) : option text :=
  match s with
  | Scalar c => append_struct (mangle tn s) []
  | Tuple d ts => append_struct (mangle tn s) (map (mangle_expr tn) ts)
  | Vector d t => append_struct (mangle tn s) [mangle_expr tn t]
  | View v t => append_struct (mangle tn s) (mangle_expr tn t :: map append_val (view_values v))
  | Union _ => None
  end.
