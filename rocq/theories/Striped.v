(** * Model of interop/cuda_striped.cuh

    Definitions only.  A striped structure is modelled at the top: nothing is placed over it.
    [threadIdx.x] and [blockDim.x] are parameters. *)

From Verif Require Export Struct.

(** cuda_striped.cuh 36-47, 50-52: the tag [cuda_stripe_index]. *)
Definition stripe_tag : tag := Other 1.

(** cuda_striped.cuh 54-55: the template parameters. *)
Record striped := { sp_num : Z; sp_elem : struct; sp_banks : Z; sp_width : Z; sp_sub : struct }.

(** cuda_striped.cuh 18-19 *)
Definition pad_to_multiple (value mul : Z) : Z := u64 (u64 (u64 (value + mul) - 1) / mul * mul).

(** cuda_striped.cuh 82-103: the widths, compile-time constants in [std::size_t].  A division by zero is
    not a constant expression: [None]. *)
Record widths := { w_elem : Z; w_padded : Z; w_elems : Z; w_stripe : Z; w_total : Z }.
Definition widths_of (p : striped) : option widths :=
  do e <- size_ (sp_elem p) [];
  do E <- vstatic e;
  if (sp_num p =? 0) || (E =? 0) || (u64 (sp_banks p * sp_width p) =? 0) then None
  else
    let tmp := u64 (sp_banks p / sp_num p * sp_width p) in
    let padded := if tmp <? E then pad_to_multiple E (sp_width p) else tmp in
    let elems := padded / E in
    Some {| w_elem := E; w_padded := padded; w_elems := elems; w_stripe := u64 (elems * E);
            w_total := pad_to_multiple (u64 (padded * sp_num p)) (u64 (sp_banks p * sp_width p)) |}.

(** cuda_striped.cuh 107 *)
Definition max_conflict (p : striped) (w : widths) : Z := w_total w / u64 (sp_banks p * sp_width p).

(** cuda_striped.cuh 71-81 *)
Definition stripe_sub_state (st : state) : state := remove [stripe_tag] st.

(** cuda_striped.cuh 121-139 *)
Definition striped_size (p : striped) (st : state) : option val :=
  do w <- widths_of p;
  do sz <- size_ (sp_sub p) (stripe_sub_state st);
  let els := vdiv sz (Sta (w_elem w)) in
  let len := vdiv (vadd els (Sta (w_elems w - 1))) (Sta (w_elems w)) in
  Some (vmul len (Sta (w_total w))).

(** cuda_striped.cuh 207-220: [offset_inner]. *)
Definition offset_inner (p : striped) (w : widths) (tid : Z) (st : state) (period start : val) : val :=
  let off := vmul period (Sta (w_total w)) in
  let stripe := match get stripe_tag st with
                | Some i => vmul i (Sta (w_padded w))
                | None => Dyn (u64 (tid mod sp_num p * w_padded w))
                end in
  vadd (vadd off stripe) start.

(** cuda_striped.cuh 151-168, with funcs.hpp 81-87: the offset of the element. *)
Definition striped_offset (p : striped) (tid : Z) (st : state) : option val :=
  do w <- widths_of p;
  do c <- scalar_t (sp_sub p) st;
  do o <- offset_of (Scalar c) (sp_sub p) (stripe_sub_state st) (Sta 0);
  let major := vdiv o (Sta (w_stripe w)) in
  if same_type (Scalar c) (sp_elem p) && (w_elems w =? 1) then Some (offset_inner p w tid st major (Sta 0))
  else Some (offset_inner p w tid st major (vadd (Sta 0) (vmod o (Sta (w_stripe w))))).

(** cuda_striped.cuh 190: [current_stripe_index]. *)
Definition current_stripe (p : striped) (tid : Z) : Z := tid mod sp_num p.

(** cuda_striped.cuh 194-199: [current_stripe_cg]: rank and number of threads of the stripe. *)
Definition stripe_rank (p : striped) (tid : Z) : Z := tid / sp_num p.
Definition stripe_threads (p : striped) (tid block : Z) : Z := (block + sp_num p - current_stripe p tid - 1) / sp_num p.

(** cuda_striped.cuh 235-244: [cuda_striped<N>()] without an element structure takes the scalar. *)
Definition scalar_striped (n banks width : Z) (s : struct) : option striped :=
  do c <- scalar_t s []; Some {| sp_num := n; sp_elem := Scalar c; sp_banks := banks; sp_width := width; sp_sub := s |}.
