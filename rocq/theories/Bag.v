(** * Model of interop/bag.hpp and interop/serialize_data.hpp

    Definitions only.  Memory is a list of bytes; what a value of a scalar type means is left open, a
    value is its bytes.  Simplification: pointers are offsets into the block that belongs to the bag, so
    only one block exists.  An access outside of the block is undefined behaviour. *)

From Verif Require Export Traverser Mangle.

Definition byte := Z.
Definition bytes := list byte.

(** bag.hpp 16-105: who owns the data.  [Owned]: [std::unique_ptr<char[]>], [Raw]: [void *], [ConstRaw]: [const void *].
    Bags in a [std::vector<char>]: VectorBag.v. *)
Inductive policy := Owned | Raw | ConstRaw.

(** bag.hpp 113-118: a structure and its data. *)
Record bag := { bg_struct : struct; bg_policy : policy; bg_data : bytes }.

(** bag.hpp 54-61, 121, 310-313, 332-335: [make_bag(s)] allocates [get_size] zero bytes ([make_unique<char[]>] clears them). *)
Definition make_bag (s : struct) : outcome bag :=
  match get_size s [] with
  | None => Rejected
  | Some v => match vz v with
              | None => Undefined
              | Some n => Done {| bg_struct := s; bg_policy := Owned; bg_data := repeat 0 (Z.to_nat n) |}
              end
  end.

(** bag.hpp 355-369: [make_bag(s, ptr)]. *)
Definition make_bag_at (s : struct) (const : bool) (data : bytes) : bag :=
  {| bg_struct := s; bg_policy := if const then ConstRaw else Raw; bg_data := data |}.

(** bag.hpp 370-373: [get_ref]; [data()] of a [std::unique_ptr] bag is a [void *] (63-66). *)
Definition get_ref (b : bag) : bag := {| bg_struct := bg_struct b; bg_policy := match bg_policy b with ConstRaw => ConstRaw | _ => Raw end; bg_data := bg_data b |}.

(** [proto_preserves_layout]: false for vector (structs/layouts.hpp 342) and tuple (197), true for all views (structs/bcast.hpp 94,
    setters.hpp 133 and 265, slice.hpp 177, 336, 489, 645, 663, 800, blocks.hpp 205, 466, 675, 885, zcurve.hpp 280, views.hpp 216,
    317, 544, 677); a composition preserves the layout if all its parts do (base/structs_common.hpp 348, 366-367). *)
Definition preserves_layout (p : proto) : bool := forallb (fun x => match x with LVector _ => false | LView _ => true end) p.

(** Whether the data member can be copied: a pointer can, a [std::unique_ptr] cannot. *)
Definition copyable (q : policy) : bool := match q with Owned => false | _ => true end.

(** bag.hpp 243-257: [bag ^ proto] for a bag that is given up ([given], an rvalue) or not.  The first overload takes the data
    with [get<1>()], which returns a reference to const (base/contain.hpp 124-129).  [std::move] of it has the type
    [const data_t &&], so the constructor of bag.hpp 125 is chosen, which copies the data.  The second overload requires data
    that can be copied. *)
Definition bag_view (given : bool) (b : bag) (p : proto) : outcome bag :=
  if preserves_layout p && copyable (bg_policy b) then
    match signature (apply p (bg_struct b)) with
    | Some _ => Done {| bg_struct := apply p (bg_struct b); bg_policy := bg_policy b; bg_data := bg_data b |}
    | None => Rejected
    end
  else Rejected.

(** funcs.hpp 119-152: the bytes that [get_at(data, state)] refers to: their offset and number. *)
Definition bag_ref (b : bag) (st : state) : outcome (Z * Z) :=
  match scalar_t (bg_struct b) st, offset (bg_struct b) st with
  | Some c, Some o =>
      match vz o with
      | Some x => if x + ct_size c <=? Z.of_nat (length (bg_data b)) then Done (x, ct_size c) else Undefined
      | None => Undefined
      end
  | _, _ => Rejected
  end.

(** bag.hpp 172-190: reading [bag[state]] (or [bag.at<dims...>(indices...)], the same state). *)
Definition bag_read (b : bag) (st : state) : outcome bytes :=
  out_map (fun r => firstn (Z.to_nat (snd r)) (skipn (Z.to_nat (fst r)) (bg_data b))) (bag_ref b st).

(** Replacing bytes. *)
Definition patch (data : bytes) (o : Z) (v : bytes) : bytes :=
  firstn (Z.to_nat o) data ++ v ++ skipn (Z.to_nat o + length v) data.

(** bag.hpp 172-190: [bag[state] = v].  A [const void *] bag gives references to const.  The value has the
    type of the element, hence its number of bytes. *)
Definition bag_write (b : bag) (st : state) (v : bytes) : outcome bag :=
  match bg_policy b with
  | ConstRaw => Rejected
  | _ => out_bind (bag_ref b st) (fun r =>
           if Z.of_nat (length v) =? snd r
           then Done {| bg_struct := bg_struct b; bg_policy := bg_policy b; bg_data := patch (bg_data b) (fst r) v |}
           else Rejected)
  end.

Section Serialize.
  (** The text that the stream writes for a value, and what it reads: the value and the rest of the text,
      or [None] if reading fails. *)
  Variables (print : cty -> bytes -> text) (scan : cty -> text -> option (bytes * text)).

  (** serialize_data.hpp 22-27: [out << element << '\n'] for every state of the traversal, in order. *)
  Fixpoint serialize_states (b : bag) (sts : list state) : outcome text :=
    match sts with
    | [] => Done []
    | st :: sts =>
        match scalar_t (bg_struct b) st with
        | None => Rejected
        | Some c => out_bind (bag_read b st) (fun v => out_map (fun x => print c v ++ 10 :: x) (serialize_states b sts))
        end
    end.
  Definition serialize (b : bag) : outcome text :=
    out_bind (for_each (traverser [bg_struct b]) []) (serialize_states b).

  (** serialize_data.hpp 9-13: [in >> element].  The result is the bag and what is left of the input, [None]
      if the stream failed.  Simplification: after a failure the elements are left as they are (the C++
      library stores 0 in the element at which a number could not be read). *)
  Fixpoint deserialize_states (b : bag) (inp : text) (sts : list state) : outcome (bag * option text) :=
    match sts with
    | [] => Done (b, Some inp)
    | st :: sts =>
        match scalar_t (bg_struct b) st with
        | None => Rejected
        | Some c =>
            out_bind (bag_ref b st) (fun _ =>
              match scan c inp with
              | None => Done (b, None)
              | Some (v, rest) => out_bind (bag_write b st v) (fun b' => deserialize_states b' rest sts)
              end)
        end
    end.
  Definition deserialize (inp : text) (b : bag) : outcome (bag * option text) :=
    out_bind (for_each (traverser [bg_struct b]) []) (deserialize_states b inp).
End Serialize.
