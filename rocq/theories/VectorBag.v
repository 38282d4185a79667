(** * Bags whose data is a [std::vector]

    interop/bag.hpp 21-40, 321-324 ([make_vector_bag]). *)

From Verif Require Export Bag.

(** A structure and a vector of bytes. *)
Record vector_bag := { vb_struct : struct; vb_data : bytes }.

(** bag.hpp 26-29, 121, 321-324: [make_vector_bag(s)]; [std::vector<char>(size)] clears the bytes. *)
Definition make_vector_bag (s : struct) : outcome vector_bag :=
  out_map (fun b => {| vb_struct := bg_struct b; vb_data := bg_data b |}) (make_bag s).

(** bag.hpp 158-161, 36-39, 370-373: [get_ref()].  [data()] is a const member and [get<1>()] returns a reference to const
    (base/contain.hpp 124-129), so the overload for a const vector is chosen and the pointer is a [const char *]. *)
Definition vb_ref (b : vector_bag) : bag := {| bg_struct := vb_struct b; bg_policy := ConstRaw; bg_data := vb_data b |}.

(** bag.hpp 181-185: [bag[state]], which uses [data()]. *)
Definition vb_read (b : vector_bag) (st : state) : outcome bytes := bag_read (vb_ref b) st.

(** bag.hpp 181-185: [bag[state] = v]. *)
Definition vb_write (b : vector_bag) (st : state) (v : bytes) : outcome vector_bag :=
  out_map (fun b' => {| vb_struct := bg_struct b'; vb_data := bg_data b' |}) (bag_write (vb_ref b) st v).

(** bag.hpp 243-257: [bag ^ proto].  A bag that is given up has its vector copied (Bag.v, [bag_view]); one that is not is
    rejected, because a vector is not trivially copyable. *)
Definition vb_view (given : bool) (b : vector_bag) (p : proto) : outcome vector_bag :=
  if given then out_map (fun b' => {| vb_struct := bg_struct b'; vb_data := bg_data b' |}) (bag_view true (vb_ref b) p) else Rejected.
