(** * C52: arrays, vectors without lengths and vectors with the lengths of another structure *)

From Verif Require Import PropsLayout Arrays.

(** [array<d, n>()] has the compile-time length [n]. *)
Theorem C52_array : forall d n t st, get (Idx d) st = None -> length_ (apply (p_array d n) t) d st = Some (Sta n).
Proof. exact array_length. Qed.
Print Assumptions C52_array.

(** It takes n times the size of an item; the size is a constant if that of an item is. *)
Theorem C52_array_size : forall d n t st, get (Idx d) st = None -> get (Len d) st = None ->
  forall z k, get_size t st = Some z -> vz z = Some k ->
  exists z', get_size (apply (p_array d n) t) st = Some z' /\ vz z' = Some (u64 (n * k)) /\ (vstatic z = Some k -> vstatic z' = Some (u64 (n * k))).
Proof. exact array_size. Qed.
Print Assumptions C52_array_size.

(** Item [i] starts [i] sizes of an item after the first one. *)
Theorem C52_array_offset : forall d n t st, get (Idx d) st = None -> get (Len d) st = None ->
  forall i k z y o x, 0 <= n < W -> signature (apply (p_array d n) t) <> None -> vz i = Some k -> 0 <= k < n ->
  get_size t st = Some z -> vz z = Some y -> offset t st = Some o -> vz o = Some x ->
  exists o', offset (apply (p_array d n) t) ((Idx d, i) :: st) = Some o' /\ vz o' = Some (u64 (k * y + x)).
Proof. exact array_offset. Qed.
Print Assumptions C52_array_offset.

(** [array<3, 7>()] of [array<2, 5>()] of 4-byte integers, item 6, of this item 2. *)
Example C52_ex_array :
  let t := apply (p_array 2 5) (Scalar int4) in
  signature (apply (p_array 3 7) t) <> None /\ get_size t [(Idx 2, Dyn 2)] = Some (Sta 20) /\ offset t [(Idx 2, Dyn 2)] = Some (Dyn 8) /\
  offset (apply (p_array 3 7) t) [(Idx 3, Dyn 6); (Idx 2, Dyn 2)] = Some (Dyn 128) /\ get_size (apply (p_array 3 7) t) [] = Some (Sta 140).
Proof. vm_compute. repeat split; discriminate. Qed.

(** [vectors<Dims...>()] without lengths: once the state gives the lengths ([sized]), the elements are where those of
    [vectors<Dims...>(lengths...)] are (C08). *)
Theorem C52_vectors_offset : forall c l st, NoDup (map fst l) -> sized st l -> indexed st l -> 0 <= ct_size c -> volume (lens l) * ct_size c < W ->
  exists o, offset (apply (p_vectors0 (map fst l)) (Scalar c)) st = Some o /\ vz o = Some (position (pairs st l) * ct_size c).
Proof. exact vectors0_offset. Qed.
Print Assumptions C52_vectors_offset.

Theorem C52_vectors_size : forall c l st, NoDup (map fst l) -> sized st l -> Forall (fun x => vz (snd x) <> None) l ->
  0 <= ct_size c -> volume (lens l) * ct_size c < W ->
  exists n, get_size (apply (p_vectors0 (map fst l)) (Scalar c)) st = Some n /\ vz n = Some (volume (lens l) * ct_size c).
Proof. exact vectors0_size. Qed.
Print Assumptions C52_vectors_size.

Example C52_ex_vectors :
  let l := [(2, Dyn 5); (3, Sta 7)] in
  let st := [(Idx 2, Dyn 2); (Len 2, Dyn 5); (Len 3, Sta 7); (Idx 3, Dyn 6)] in
  NoDup (map fst l) /\ sized st l /\ indexed st l /\ position (pairs st l) = 32 /\
  offset (apply (p_vectors0 [2; 3]) (Scalar int4)) st = Some (Dyn 128).
Proof.
  refine (conj _ (conj _ (conj _ (conj _ _)))).
  - repeat constructor; simpl; intuition discriminate.
  - repeat constructor.
  - repeat constructor; simpl; do 3 eexists; repeat split; vm_compute; reflexivity.
  - vm_compute. reflexivity.
  - vm_compute. reflexivity.
Qed.

(** [length_like<d>(s, st)] gives a vector the length [s] has. *)
Theorem C52_length_like : forall d s st t p st', get (Idx d) st' = None -> p_length_like d s st = Some p ->
  length_ (apply p (Vector d t)) d st' = length_ s d st.
Proof. exact length_like_length. Qed.
Print Assumptions C52_length_like.

(** [vectors_like<ds...>(s, st)] compiles iff [s] has all these lengths. *)
Theorem C52_vectors_like_accepted : forall ds s st, (forall d, In d ds -> length_ s d st <> None) <-> p_vectors_like ds s st <> None.
Proof. exact vectors_like_some. Qed.
Print Assumptions C52_vectors_like_accepted.

(** The new structure has these lengths; it is [vectors<ds...>(...)] (C08). *)
Theorem C52_vectors_like : forall ds s st p c, NoDup ds -> p_vectors_like ds s st = Some p ->
  (forall d, In d ds -> length_ (apply p (Scalar c)) d [] = length_ s d st) /\
  exists l, p = p_vectors l /\ map fst l = ds.
Proof. exact vectors_like_lengths. Qed.
Print Assumptions C52_vectors_like.

(** Like a matrix whose dimension 2 was shifted by 2. *)
Example C52_ex_like :
  let s := View (VShift 2 (Dyn 2)) (vec 3 (Dyn 7) (vec 2 (Sta 5) (Scalar int4))) in
  exists p, p_vectors_like [3; 2] s [] = Some p /\ length_ (apply p (Scalar int4)) 2 [] = Some (Dyn 3) /\
  length_ (apply p (Scalar int4)) 3 [] = Some (Dyn 7) /\ p_vectors_like [3; 4] s [] = None.
Proof. eexists. repeat split. Qed.

(** [lengths_like<ds...>(s, st)] (C50) compiles iff there is a dimension and [s] has all the lengths. *)
Theorem C50_lengths_like_accepted : forall ds s st, (ds <> [] /\ forall d, In d ds -> length_ s d st <> None) <-> p_lengths_like ds s st <> None.
Proof. exact lengths_like_some. Qed.
Print Assumptions C50_lengths_like_accepted.
