(** * Specification: striped structures *)

From Verif Require Export SpecBag Striped.

(** The parameters are positive and far from the limits of [std::size_t]; [E] is the size of an element. *)
Definition reasonable (p : striped) (E : Z) : Prop :=
  0 < sp_num p /\ 0 < sp_banks p /\ 0 < sp_width p /\ 0 < E /\
  sp_num p * (E + sp_width p) + 2 * (sp_banks p * sp_width p) < W.

(** The stripe used in a state: the one the state names, or the one of the thread. *)
Definition stripe_of (p : striped) (tid : Z) (st : state) : option Z :=
  match get stripe_tag st with Some v => vz v | None => Some (tid mod sp_num p) end.

(** The structure consists of whole elements of [E] bytes, and no scalar crosses their borders. *)
Definition in_elements (s : struct) (E : Z) : Prop :=
  forall st o c x, element s st -> offset s st = Some o -> scalar_t s st = Some c -> vz o = Some x ->
    x mod E + ct_size c <= E /\ isize s nolens mod E = 0.

(** Vectors and views over one scalar type. *)
Fixpoint one_type (s : struct) : bool :=
  match s with
  | Scalar _ => true
  | Vector _ t | View _ t => one_type t
  | Tuple _ _ | Union _ => false
  end.

(** The preconditions of the theorems. *)
Record striped_well (p : striped) (w : widths) : Prop := {
  sw_widths : widths_of p = Some w;
  sw_params : reasonable p (w_elem w);
  sw_sub : sound_struct (sp_sub p);
  sw_elements : in_elements (sp_sub p) (w_elem w);
  sw_fits : (isize (sp_sub p) nolens / w_elem w + 1) * w_total w + w_elems w < W
}.

(** The access of a thread with a state: the stripe, the element and the bytes. *)
Definition access (p : striped) (tid : Z) (st : state) (i x n : Z) : Prop :=
  element (sp_sub p) (stripe_sub_state st) /\ stripe_of p tid st = Some i /\ 0 <= i < sp_num p /\
  exists v c, striped_offset p tid st = Some v /\ vz v = Some x /\ scalar_t (sp_sub p) st = Some c /\ n = ct_size c.

(** The memory bank of a byte. *)
Definition bank_of (p : striped) (x : Z) : Z := x / sp_width p mod sp_banks p.

(** A byte [b] that an access in stripe [i] touches. *)
Definition touches (p : striped) (i b : Z) : Prop := exists tid st x n, access p tid st i x n /\ x <= b < x + n.
