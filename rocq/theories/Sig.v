(** * Signatures and dimension trees

    Model of base/signature.hpp, extra/sig_utils.hpp, extra/struct_traits.hpp, the dimension-tree
    part of base/utility.hpp and the signature computations of structs/views.hpp.
    [None] = the program is rejected by the compiler.  Definitions only. *)

From Verif Require Export Base.

(** A scalar C++ type: an identity, its sizeof and its alignof (structs/scalar.hpp 17-64). *)
Record cty := { ct_id : Z; ct_size : Z; ct_align : Z }.
Definition cty_eqb (a b : cty) : bool :=
  (ct_id a =? ct_id b) && (ct_size a =? ct_size b) && (ct_align a =? ct_align b).

(** base/signature.hpp 12-43 *)
Inductive arglen := ADyn | ASta (n : Z).
Definition arglen_of (v : val) : arglen := match v with Sta z => ASta (u64 z) | _ => ADyn end.
Definition arglen_eqb (a b : arglen) : bool :=
  match a, b with ADyn, ADyn => true | ASta x, ASta y => x =? y | _, _ => false end.

(** base/signature.hpp 45-137: function_sig, dep_function_sig, scalar_sig.
    [SVoid] is [scalar_sig<void>], produced only by an incomplete reorder (structs/views.hpp 35). *)
Inductive sig :=
| SScalar (c : cty)
| SVoid
| SFun (d : dim) (a : arglen) (s : sig)
| SDep (d : dim) (ss : list sig).

(** base/signature.hpp 77-79, 116-118, 134-136 *)
Fixpoint any_accept (q : dim) (s : sig) : bool :=
  match s with
  | SScalar _ | SVoid => false
  | SFun d _ r => (d =? q) || any_accept q r
  | SDep d rs => (d =? q) || existsb (any_accept q) rs
  end.

(** base/signature.hpp 74-76, 113-115, 131-133 *)
Fixpoint all_accept (q : dim) (s : sig) : bool :=
  match s with
  | SScalar _ | SVoid => false
  | SFun d _ r => (d =? q) || all_accept q r
  | SDep d rs => (d =? q) || forallb (all_accept q) rs
  end.

(** base/signature.hpp 55-72, 94-111, 127-129: replace the topmost match on every path. *)
Fixpoint sreplace (ds : list dim) (f : sig -> option sig) (s : sig) : option sig :=
  match s with
  | SScalar _ | SVoid => Some s
  | SFun d a r =>
      if mem d ds then f s
      else match sreplace ds f r with Some r' => Some (SFun d a r') | None => None end
  | SDep d rs =>
      if mem d ds then f s
      else match omap (sreplace ds f) rs with Some rs' => Some (SDep d rs') | None => None end
  end.

(** extra/sig_utils.hpp 14-49 *)
Fixpoint sig_find_dim (q : dim) (st : state) (s : sig) : option sig :=
  match s with
  | SScalar _ | SVoid => None
  | SFun d a r => if d =? q then Some s else sig_find_dim q st r
  | SDep d rs =>
      if d =? q then Some s
      else match get (Idx d) st with
           | Some v => match vstatic v with
                       | Some k => ojoin (nthz (map (sig_find_dim q st) rs) k)
                       | None => None
                       end
           | None => None
           end
  end.

(** base/utility.hpp 199-206.  [DLeaf] is [dim_sequence<>]. *)
Inductive dtree := DLeaf | DNode (d : dim) (bs : list dtree).

(** extra/sig_utils.hpp 51-69 *)
Fixpoint sig_dim_tree (s : sig) : dtree :=
  match s with
  | SScalar _ | SVoid => DLeaf
  | SFun d _ r => DNode d [sig_dim_tree r]
  | SDep d rs => DNode d (map sig_dim_tree rs)
  end.

(** extra/sig_utils.hpp 71-99 (note: [push_back], so the sequence is innermost first). *)
Fixpoint sig_dim_seq (s : sig) : option (list dim) :=
  match s with
  | SScalar _ | SVoid => Some []
  | SFun d _ r => match sig_dim_seq r with Some l => Some (l ++ [d]) | None => None end
  | SDep d [r] => match sig_dim_seq r with Some l => Some (l ++ [d]) | None => None end
  | SDep _ _ => None
  end.

(** base/utility.hpp 208-220 *)
Fixpoint dtree_contains (q : dim) (t : dtree) : bool :=
  match t with
  | DLeaf => false
  | DNode d bs => (d =? q) || existsb (dtree_contains q) bs
  end.

(** base/utility.hpp 222-249 *)
Fixpoint dtree_branches (q : dim) (t : dtree) : nat :=
  match t with
  | DLeaf => 0%nat
  | DNode d bs => if d =? q then List.length bs
                  else fold_right Nat.max 0%nat (map (dtree_branches q) bs)
  end.

(** base/utility.hpp 251-268 *)
Fixpoint dtree_fix (q : dim) (k : nat) (t : dtree) : option dtree :=
  match t with
  | DLeaf => Some DLeaf
  | DNode d bs =>
      if d =? q then nth_error bs k
      else match omap (dtree_fix q k) bs with Some bs' => Some (DNode d bs') | None => None end
  end.

(** base/utility.hpp 270-281 *)
Definition dtree_hoist (q : dim) (t : dtree) : option dtree :=
  match omap (fun k => dtree_fix q k t) (seq 0 (dtree_branches q t)) with
  | Some bs => Some (DNode q bs)
  | None => None
  end.

(** base/utility.hpp 283-297 *)
Fixpoint dtree_reorder (t : dtree) (ds : list dim) : option dtree :=
  match ds with
  | [] => Some t
  | d :: r => match dtree_reorder t r with Some t' => dtree_hoist d t' | None => None end
  end.

(** base/utility.hpp 299-317: a node that is filtered out must have exactly one branch. *)
Fixpoint dtree_filter (p : dim -> bool) (t : dtree) : option dtree :=
  match t with
  | DLeaf => Some DLeaf
  | DNode d bs =>
      if p d then match omap (dtree_filter p) bs with Some bs' => Some (DNode d bs') | None => None end
      else match bs with [b] => dtree_filter p b | _ => None end
  end.

(** extra/struct_traits.hpp 53-75: the scalar type selected by the (static) tuple indices. *)
Fixpoint sig_get_scalar (s : sig) (st : state) : option cty :=
  match s with
  | SScalar c => Some c
  | SVoid => None
  | SFun d _ r => sig_get_scalar r (remove [Idx d; Len d] st)
  | SDep d rs =>
      match get (Idx d) st with
      | Some v => match vstatic v with
                  | Some k => ojoin (nthz (map (fun x => sig_get_scalar x (remove [Idx d; Len d] st)) rs) k)
                  | None => None
                  end
      | None => None
      end
  end.

(** extra/struct_traits.hpp 12-37 *)
Definition sig_is_point (s : sig) : bool := match s with SScalar _ | SVoid => true | _ => false end.
Fixpoint sig_is_cube (s : sig) : bool :=
  match s with SScalar _ | SVoid => true | SFun _ _ r => sig_is_cube r | SDep _ _ => false end.

(** ** Signature computations of the views *)

(** Select components of a tuple signature by position: [dep_function_sig<Dim, ret_sig<f(I)>...>]
    for I in [make_index_sequence<len>] (structs/slice.hpp 66-74, 248-256, 400-408, 554-562,
    710-718).  A length above the number of components cannot be in range and is rejected. *)
Definition pick_sigs (rs : list sig) (len : Z) (f : Z -> Z) : option (list sig) :=
  if len <=? Z.of_nat (List.length rs) then omap (fun i => nthz rs (u64 (f i))) (zseq len) else None.

(** structs/views.hpp 18-63 *)
Fixpoint reassemble_scalar (s : sig) (st : state) : option sig :=
  match s with
  | SScalar c => Some (SScalar c)
  | SVoid => Some SVoid
  | SFun d _ r => if has (Idx d) st then reassemble_scalar r st else Some SVoid
  | SDep d rs =>
      match get (Idx d) st with
      | None => Some SVoid
      | Some v => match vstatic v with
                  | Some k => ojoin (nthz (map (fun x => reassemble_scalar x st) rs) k)
                  | None => None
                  end
      end
  end.

(** structs/views.hpp 65-107 *)
Fixpoint reassemble_build (top : sig) (st : state) (ds : list dim) : option sig :=
  match ds with
  | [] => reassemble_scalar top st
  | d :: r =>
      if mem d r then None
      else match sig_find_dim d st top with
           | Some (SFun _ a _) =>
               match reassemble_build top (with_ [(Idx d, Dyn 0)] st) r with
               | Some s => Some (SFun d a s)
               | None => None
               end
           | Some (SDep _ rs) =>
               match omap (fun k => reassemble_build top (with_ [(Idx d, Sta k)] st) r)
                          (zseq (Z.of_nat (List.length rs))) with
               | Some ss => Some (SDep d ss)
               | None => None
               end
           | _ => None
           end
  end.

(** structs/views.hpp 109-123 *)
Fixpoint sig_complete (s : sig) : bool :=
  match s with
  | SScalar _ => true
  | SVoid => false
  | SFun _ _ r => sig_complete r
  | SDep _ rs => forallb sig_complete rs
  end.

(** structs/views.hpp 365-399; [ps] is the list of (from, to) pairs. *)
Fixpoint rename_dim (ps : list (dim * dim)) (q : dim) : dim :=
  match ps with
  | [] => q
  | (f, t) :: r => if q =? f then t else rename_dim r q
  end.

Fixpoint rename_sig (ps : list (dim * dim)) (s : sig) : sig :=
  match s with
  | SScalar c => SScalar c
  | SVoid => SVoid
  | SFun d a r => SFun (rename_dim ps d) a (rename_sig ps r)
  | SDep d rs => SDep (rename_dim ps d) (map (rename_sig ps) rs)
  end.

(** extra/traverser.hpp 22-52 *)
Fixpoint sig_union2 (s1 s2 : sig) : option sig :=
  match s2 with
  | SScalar _ | SVoid => Some s1
  | SFun d a r =>
      match sig_union2 s1 r with
      | Some r' => Some (if any_accept d s1 then r' else SFun d a r')
      | None => None
      end
  | SDep _ _ => None
  end.

(** extra/traverser.hpp 54-65 *)
Fixpoint sig_union (s : sig) (ss : list sig) : option sig :=
  match ss with
  | [] => Some s
  | x :: r => match sig_union2 s x with Some s' => sig_union s' r | None => None end
  end.
