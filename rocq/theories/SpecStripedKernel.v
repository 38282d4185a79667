(** * Stripes as private copies: specification (C64)

    Definitions only. *)

From Coq Require Export Permutation.
From Verif Require Export SpecTrav Layout SpecStriped SpecRange StripedKernel SpecKernel.

(** Accumulating values with the property [P]: in any order and grouping, starting from [e]. *)
Record collects (P : bytes -> Prop) (f : bytes -> bytes -> bytes) (e : bytes) : Prop := {
  co_start : P e;
  co_closed : forall v x, P v -> P x -> P (f v x);
  co_neutral : forall v, P v -> f v e = v;
  co_swap : forall v x, P v -> P x -> f v x = f x v;
  co_group : forall v x y, P v -> P x -> P y -> f (f v x) y = f v (f x y)
}.

(** No scalar of the structure is empty (no C++ type has 0 bytes). *)
Fixpoint no_empty_scalar (s : struct) : bool :=
  match s with
  | Scalar c => 0 <? ct_size c
  | Tuple _ ts | Union ts => forallb no_empty_scalar ts
  | Vector _ t | View _ t => no_empty_scalar t
  end.

(** The block has the striped structure in [shm], as documented; [l] are the dimensions. *)
Record striped_use (p : striped) (w : widths) (l : list (dim * Z)) (shm : bytes) : Prop := {
  su_well : striped_well p w;
  su_alone : nobcast (sp_sub p) = true;
  su_scalars : no_empty_scalar (sp_sub p) = true;
  su_cube : cube (sp_sub p) l;
  su_room : exists v n, striped_size p [] = Some v /\ vz v = Some n /\ n <= Z.of_nat (length shm)
}.

(** The stripe [i] exists, and it is the one that the state leads to in the thread. *)
Definition in_stripe_no (p : striped) (tid : Z) (st : state) (i : Z) : Prop := stripe_of p tid st = Some i /\ 0 <= i < sp_num p.

(** The update is one of an element of a stripe. *)
Definition fine_update (p : striped) (l : list (dim * Z)) (u : update) : Prop :=
  (exists i, in_stripe_no p (up_thread u) (up_state u) i) /\ named (sp_sub p) (asg_of (up_state u)) (up_state u) /\ in_box l (asg_of (up_state u)).

(** The values with which the element at [x] is updated, in whichever stripe. *)
Definition given_to (l : list (dim * Z)) (x : asg) (us : list update) : list bytes :=
  map up_value (filter (fun u => agrees (map fst l) x (asg_of (up_state u))) us).

(** Unsigned integers of [n] bytes, added up. *)
Definition is_uint (n : nat) (v : bytes) : Prop := exists z, v = uint n z.
Definition add_uint (n : nat) (v x : bytes) : bytes := uint n (le_value v + le_value x).

(** Clearing: [block] threads, each with [order(cuda_step<d>(current_stripe_cg()))] where [d] is the outermost dimension, in any interleaving. *)
Definition clears (p : striped) (l : list (dim * Z)) (block : Z) (fills : list (Z * state)) : Prop :=
  exists ss o r calls cs, let t := order (traverser ss) o in
    loops rearranges ss o l /\ distinct_dims (top_struct t) /\ range_of t = Done r /\ rg_end r + block <= W /\ for_each t [] = Done calls /\
    fill_calls t (rg_dim r) p block = Done cs /\ Permutation cs fills.
(** A loop over all the elements, in any order. *)
Definition visits (l : list (dim * Z)) (sts : list state) : Prop :=
  exists ss o calls, loops rearranges ss o l /\ for_each (order (traverser ss) o) [] = Done calls /\ Permutation calls sts.
