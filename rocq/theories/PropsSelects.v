(** * C73: several ways to select from one dimension *)

From Verif Require Import Check PropsLayout PropsOrder PropsViews Selects.

(** [span(b, e)] is [slice(b, e - b)]. *)
Theorem C73_span_slice : forall d b e t st, signature (View (VSpan d b e) t) <> None -> signature (View (VSlice d b (vsub e b)) t) <> None ->
  works_as (View (VSpan d b e) t) st (View (VSlice d b (vsub e b)) t) st /\
  forall q, get (Idx q) st = None -> length_as (View (VSpan d b e) t) q st (View (VSlice d b (vsub e b)) t) q st.
Proof. exact span_slice. Qed.
Print Assumptions C73_span_slice.

(** [shift(b)] is [slice(b, n)] for any [n], except that its length is the rest of the dimension; for this [n] it is
    the slice (unless the state gives the length). *)
Theorem C73_shift_slice : forall d b n t st, signature (View (VShift d b) t) <> None -> signature (View (VSlice d b n) t) <> None -> get (Len d) st = None ->
  works_as (View (VShift d b) t) st (View (VSlice d b n) t) st /\
  (forall q, q <> d -> get (Idx q) st = None -> length_as (View (VShift d b) t) q st (View (VSlice d b n) t) q st) /\
  (forall l, get (Idx d) st = None -> length_ t d st = Some l -> length_ (View (VShift d b) t) d st = Some (vsub l b) /\ length_ (View (VSlice d b n) t) d st = Some n).
Proof. exact shift_slice. Qed.
Print Assumptions C73_shift_slice.

(** [slice(0, n)] has the elements of the structure itself. *)
Theorem C73_slice_all : forall d n t st, signature (View (VSlice d (Sta 0) n) t) <> None -> (forall i, get (Idx d) st = Some i -> is_size i) ->
  works_as (View (VSlice d (Sta 0) n) t) st t st.
Proof. exact slice_all. Qed.
Print Assumptions C73_slice_all.

(** [step(0, 1)] is the structure itself. *)
Theorem C73_step_all : forall d t st, signature (View (VStep d (Sta 0) (Sta 1)) t) <> None -> (forall i, get (Idx d) st = Some i -> is_size i) ->
  works_as (View (VStep d (Sta 0) (Sta 1)) t) st t st /\
  forall l len, get (Idx d) st = None -> length_ t d st = Some l -> vz l = Some len -> len + 1 <= W ->
    exists w, length_ (View (VStep d (Sta 0) (Sta 1)) t) d st = Some w /\ vz w = Some len.
Proof. exact step_all. Qed.
Print Assumptions C73_step_all.

(** [step(b, r)] of a slice, span or shift from [a] is a step from [b + a]. *)
Theorem C73_step_moved : forall v d a b r t st i, moves_by v d a ->
  signature (View (VStep d b r) (View v t)) <> None -> signature (View (VStep d (vadd b a) r) t) <> None ->
  get (Len d) st = None -> get (Idx d) st = Some i -> is_size i -> is_size a -> is_size b -> is_size r ->
  works_as (View (VStep d b r) (View v t)) st (View (VStep d (vadd b a) r) t) st.
Proof. exact step_moved. Qed.
Print Assumptions C73_step_moved.

(** [step(b, r)] of [step(a, s)] is [step(b * s + a, r * s)]. *)
Theorem C73_step_step : forall d a s b r t st x ns nr, signature (View (VStep d b r) (View (VStep d a s) t)) <> None ->
  signature (View (VStep d (vadd (vmul b s) a) (vmul r s)) t) <> None ->
  get (Idx d) st = Some (Dyn x) -> 0 <= x < W -> is_size a -> is_size b -> is_size s -> is_size r ->
  vz s = Some ns -> vz r = Some nr -> 0 < ns -> 0 < nr -> nr * ns < W ->
  works_as (View (VStep d b r) (View (VStep d a s) t)) st (View (VStep d (vadd (vmul b s) a) (vmul r s)) t) st.
Proof. exact step_step_works. Qed.
Print Assumptions C73_step_step.

Theorem C73_step_step_length : forall d a s b r t st l len na nb ns nr, signature (View (VStep d b r) (View (VStep d a s) t)) <> None ->
  signature (View (VStep d (vadd (vmul b s) a) (vmul r s)) t) <> None ->
  get (Idx d) st = None -> length_ t d st = Some l -> vz l = Some len ->
  vz a = Some na -> vz s = Some ns -> vz b = Some nb -> vz r = Some nr -> na < ns -> nb < nr -> len + nr * ns < W ->
  exists w w', length_ (View (VStep d b r) (View (VStep d a s) t)) d st = Some w /\
    length_ (View (VStep d (vadd (vmul b s) a) (vmul r s)) t) d st = Some w' /\ vz w = vz w' /\ vz w <> None.
Proof. exact step_step_length. Qed.
Print Assumptions C73_step_step_length.

(** Rows of a 6 x 4 matrix. *)
Example C73_ex :
  let sp := View (VSpan 1 (Dyn 2) (Dyn 5)) mat in let sl := View (VSlice 1 (Dyn 2) (vsub (Dyn 5) (Dyn 2))) mat in let sh := View (VShift 1 (Dyn 2)) mat in
  signature sp <> None /\ signature sl <> None /\ signature sh <> None /\
  offset sp (at_ 1 3) = Some (Dyn 60) /\ offset sl (at_ 1 3) = Some (Dyn 60) /\ offset sh (at_ 1 3) = Some (Dyn 60) /\
  length_ sp 1 [] = Some (Dyn 3) /\ length_ sl 1 [] = Some (Dyn 3) /\ length_ sh 1 [] = Some (Dyn 4).
Proof. repeat split; vm_compute; congruence. Qed.
(** All of them; steps of a slice and of a step. *)
Example C73_ex_step :
  let m3 := View (VStep 1 (Dyn 1) (Dyn 2)) (View (VSlice 1 (Dyn 2) (Dyn 4)) mat) in
  let m4 := View (VStep 1 (Dyn 1) (Dyn 2)) (View (VStep 1 (Sta 0) (Dyn 2)) mat) in
  let m5 := View (VStep 1 (vadd (vmul (Dyn 1) (Dyn 2)) (Sta 0)) (vmul (Dyn 2) (Dyn 2))) mat in
  signature (View (VSlice 1 (Sta 0) (Dyn 6)) mat) <> None /\ signature (View (VStep 1 (Sta 0) (Sta 1)) mat) <> None /\
  offset (View (VStep 1 (Sta 0) (Sta 1)) mat) (at_ 3 3) = Some (Dyn 60) /\ length_ (View (VStep 1 (Sta 0) (Sta 1)) mat) 1 [] = Some (Dyn 6) /\
  signature m3 <> None /\ signature (View (VStep 1 (vadd (Dyn 1) (Dyn 2)) (Dyn 2)) mat) <> None /\
  offset m3 (at_ 1 3) = Some (Dyn 92) /\ offset (View (VStep 1 (vadd (Dyn 1) (Dyn 2)) (Dyn 2)) mat) (at_ 1 3) = Some (Dyn 92) /\
  signature m4 <> None /\ signature m5 <> None /\ offset m4 (at_ 0 3) = Some (Dyn 44) /\ offset m5 (at_ 0 3) = Some (Dyn 44) /\
  length_ m4 1 [] = Some (Dyn 1) /\ length_ m5 1 [] = Some (Dyn 1).
Proof. repeat split; vm_compute; congruence. Qed.
