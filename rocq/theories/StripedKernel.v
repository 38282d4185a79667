(** * Bags over striped structures, used as private copies (interop/cuda_striped.cuh, interop/cuda_step.cuh)

    Definitions only.  The use that the documentation describes (docs/structs/cuda_striped.md, docs/structs/cuda_step.md): the threads of
    a block share a bag over a striped structure; they clear their stripes together, each thread accumulates into its stripe, and then
    the stripes are added up.  Simplifications: the updates are atomic, the three phases are separated by barriers, and the threads
    traverse the structure under the stripes (a striped structure has the same dimensions and lengths, cuda_striped.cuh 60-66, 170-181). *)

From Verif Require Export Striped Kernel AutoStep.

(** extra/funcs.hpp 119-152, as in Bag.v: the bytes that [bag[state]] refers to in thread [tid]. *)
Definition striped_ref (p : striped) (tid : Z) (data : bytes) (st : state) : outcome (Z * Z) :=
  match scalar_t (sp_sub p) st, striped_offset p tid st with
  | Some c, Some o =>
      match vz o with
      | Some x => if x + ct_size c <=? Z.of_nat (length data) then Done (x, ct_size c) else Undefined
      | None => Undefined
      end
  | _, _ => Rejected
  end.

(** interop/bag.hpp 172-190: reading and writing [bag[state]]. *)
Definition striped_read (p : striped) (tid : Z) (data : bytes) (st : state) : outcome bytes :=
  out_map (fun r => firstn (Z.to_nat (snd r)) (skipn (Z.to_nat (fst r)) data)) (striped_ref p tid data st).
Definition striped_write (p : striped) (tid : Z) (data : bytes) (st : state) (v : bytes) : outcome bytes :=
  out_bind (striped_ref p tid data st) (fun r => if Z.of_nat (length v) =? snd r then Done (patch data (fst r) v) else Rejected).

(** Clearing: [bag[state] = e] in these threads with these states, one after another. *)
Fixpoint striped_fill (p : striped) (e : bytes) (data : bytes) (cs : list (Z * state)) : outcome bytes :=
  match cs with
  | [] => Done data
  | (tid, st) :: r => out_bind (striped_write p tid data st e) (fun data' => striped_fill p e data' r)
  end.

(** cuda_striped.cuh 190-199 with cuda_step.cuh 10-33: the states with which a thread clears its stripe,
    [traverser.order(cuda_step<d>(bag.structure().current_stripe_cg())).for_each(...)]. *)
Definition fill_states (t : trav) (d : dim) (p : striped) (block tid : Z) : outcome (list state) :=
  for_each (order t (cuda_step d (stripe_rank p tid) (stripe_threads p tid block))) [].
(** All threads of the block, one after another. *)
Definition fill_calls (t : trav) (d : dim) (p : striped) (block : Z) : outcome (list (Z * state)) :=
  out_cat (map (fun tid => out_map (map (pair tid)) (fill_states t d p block tid)) (zseq block)).

(** An update: [bag[state] = f(bag[state], value)] in a thread; the stripe is that of the thread unless the state names one. *)
Record update := { up_thread : Z; up_state : state; up_value : bytes }.
Definition striped_update (f : bytes -> bytes -> bytes) (p : striped) (data : bytes) (u : update) : outcome bytes :=
  out_bind (striped_read p (up_thread u) data (up_state u)) (fun v => striped_write p (up_thread u) data (up_state u) (f v (up_value u))).
Fixpoint striped_updates (f : bytes -> bytes -> bytes) (p : striped) (data : bytes) (us : list update) : outcome bytes :=
  match us with
  | [] => Done data
  | u :: r => out_bind (striped_update f p data u) (fun data' => striped_updates f p data' r)
  end.

(** The values of an element in all the stripes, read by thread [tid]: [bag[state & cuda_stripe_idx(i)]] for every [i]
    (cuda_striped.cuh 36-52, 170-177). *)
Fixpoint stripe_reads (p : striped) (tid : Z) (data : bytes) (st : state) (is : list Z) : outcome (list bytes) :=
  match is with
  | [] => Done []
  | i :: r => out_bind (striped_read p tid data (with_ [(stripe_tag, Dyn i)] st)) (fun v => out_map (cons v) (stripe_reads p tid data st r))
  end.

(** Clearing, accumulating, and adding up: [out[state] = f(out[state], bag[state & cuda_stripe_idx(i)])] for every stripe [i]. *)
Definition striped_kernel (f : bytes -> bytes -> bytes) (e : bytes) (p : striped) (fills : list (Z * state)) (us : list update)
    (tid : Z) (sts : list state) (shm : bytes) (out : bag) : outcome bag :=
  out_bind (striped_fill p e shm fills) (fun m =>
  out_bind (striped_updates f p m us) (fun m' =>
  loop_with (fun v xs => fold_left f xs v) (fun st => stripe_reads p tid m' st (zseq (sp_num p))) out sts)).
