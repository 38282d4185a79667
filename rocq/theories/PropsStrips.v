(** * C52: the shortcuts that take lengths *)

From Coq Require Import Permutation Sorted.
From Verif Require Import Check PropsLayout PropsOrder PropsViews Strips.

(** [into_blocks<d, M, m>(n)]: index (block, position) is index block * n + position. *)
Theorem C52_into_blocks : forall d M m n t st st' iM im, signature (apply (p_into_blocks d M m n) t) <> None ->
  get (Len M) st = None -> get (Idx M) st = Some iM -> get (Idx m) st = Some im ->
  edited st ((Idx d, Some (vadd (vmul iM n) im)) :: dropped [d; M; m]) st' ->
  works_as (apply (p_into_blocks d M m n) t) st t st' /\
  (forall q, q <> d -> q <> M -> q <> m -> get (Idx q) st = None -> length_as (apply (p_into_blocks d M m n) t) q st t q st').
Proof. exact into_blocks_works. Qed.
Print Assumptions C52_into_blocks.

Theorem C52_into_blocks_lengths : forall d M m n t st cs l, signature (apply (p_into_blocks d M m n) t) <> None ->
  get (Len M) st = None -> edited st (dropped [d; M; m]) cs -> length_ t d cs = Some l ->
  (get (Idx m) st = None -> length_ (apply (p_into_blocks d M m n) t) m st = Some n) /\
  (get (Idx M) st = None -> length_ (apply (p_into_blocks d M m n) t) M st = Some (vdiv l n)).
Proof. exact into_blocks_lengths. Qed.
Print Assumptions C52_into_blocks_lengths.

(** [into_blocks_dynamic<d, M, m, p>(n)]: the same with the number of blocks rounded up; [p] has length 1 inside and 0 past the end. *)
Theorem C52_into_blocks_dynamic : forall d M m p n t st st' iM im ip, signature (apply (p_into_blocks_dynamic d M m p n) t) <> None ->
  get (Len M) st = None -> get (Len p) st = None -> get (Idx M) st = Some iM -> get (Idx m) st = Some im -> get (Idx p) st = Some ip ->
  edited st ((Idx d, Some (vadd (vmul iM n) im)) :: dropped [d; M; m; p]) st' ->
  works_as (apply (p_into_blocks_dynamic d M m p n) t) st t st' /\
  (forall q, q <> d -> q <> M -> q <> m -> q <> p -> get (Idx q) st = None -> length_as (apply (p_into_blocks_dynamic d M m p n) t) q st t q st').
Proof. exact into_blocks_dyn_works. Qed.
Print Assumptions C52_into_blocks_dynamic.

Theorem C52_into_blocks_dynamic_lengths : forall d M m p n t st cs l, signature (apply (p_into_blocks_dynamic d M m p n) t) <> None ->
  get (Len M) st = None -> get (Len p) st = None -> edited st (dropped [d; M; m; p]) cs -> length_ t d cs = Some l ->
  (get (Idx m) st = None -> length_ (apply (p_into_blocks_dynamic d M m p n) t) m st = Some n) /\
  (get (Idx M) st = None -> length_ (apply (p_into_blocks_dynamic d M m p n) t) M st = Some (vdiv (vsub (vadd l n) (Sta 1)) n)) /\
  (forall iM im, get (Idx p) st = None -> get (Idx M) st = Some iM -> get (Idx m) st = Some im ->
     length_ (apply (p_into_blocks_dynamic d M m p n) t) p st = Some (vlt (vadd (vmul iM n) im) l)).
Proof. exact into_blocks_dyn_lengths. Qed.
Print Assumptions C52_into_blocks_dynamic_lengths.

(** [merge_blocks<M, m, d>(n)]: the dimension [m] gets length [n]; index i is (i / n, i mod n), the length is the product. *)
Theorem C52_merge_blocks : forall M m d n t st cs st' lM i, signature (apply (p_merge_blocks M m d n) t) <> None ->
  edited st ((Len m, Some n) :: dropped [d; M; m]) cs -> length_ t M cs = Some lM -> length_ t m cs = Some n ->
  get (Idx d) st = Some i ->
  edited st ([(Idx M, Some (vdiv i n)); (Idx m, Some (vmod i n)); (Len m, Some n)] ++ dropped [d; M; m]) st' ->
  works_as (apply (p_merge_blocks M m d n) t) st t st' /\
  (forall q, q <> d -> q <> M -> q <> m -> get (Idx q) st = None -> length_as (apply (p_merge_blocks M m d n) t) q st t q st').
Proof. exact merge_blocks_works. Qed.
Print Assumptions C52_merge_blocks.

Theorem C52_merge_blocks_length : forall M m d n t st cs lM, signature (apply (p_merge_blocks M m d n) t) <> None ->
  edited st ((Len m, Some n) :: dropped [d; M; m]) cs -> length_ t M cs = Some lM -> length_ t m cs = Some n ->
  unused d st -> length_ (apply (p_merge_blocks M m d n) t) d st = Some (vmul lM n).
Proof. exact merge_blocks_len. Qed.
Print Assumptions C52_merge_blocks_length.

(** [bcast<Dims...>(lengths...)]: the new dimensions have the given lengths and nothing else depends on them. *)
Theorem C52_bcast : forall l t st st', signature (apply (p_bcast l) t) <> None -> edited st (dropped (map fst l)) st' ->
  works_as (apply (p_bcast l) t) st t st' /\
  (forall q, ~ In q (map fst l) -> get (Idx q) st = None -> length_as (apply (p_bcast l) t) q st t q st') /\
  (forall d n, NoDup (map fst l) -> In (d, n) l -> get (Idx d) st = None -> length_ (apply (p_bcast l) t) d st = Some n).
Proof. exact bcast_works. Qed.
Print Assumptions C52_bcast.

(** [strip_mine] changes the order of traversal of [into_blocks], nothing else. *)
Theorem C52_strip_mine : forall d M m n t st, signature (apply (p_strip_mine d M m n) t) <> None ->
  works_as (apply (p_strip_mine d M m n) t) st (apply (p_into_blocks d M m n) t) st /\
  (forall q, get (Idx q) st = None -> length_as (apply (p_strip_mine d M m n) t) q st (apply (p_into_blocks d M m n) t) q st).
Proof. exact strip_mine_works. Qed.
Print Assumptions C52_strip_mine.

Theorem C52_strip_mine_dynamic : forall d M m p n t st, signature (apply (p_strip_mine_dynamic d M m p n) t) <> None ->
  works_as (apply (p_strip_mine_dynamic d M m p n) t) st (apply (p_into_blocks_dynamic d M m p n) t) st /\
  (forall q, get (Idx q) st = None -> length_as (apply (p_strip_mine_dynamic d M m p n) t) q st (apply (p_into_blocks_dynamic d M m p n) t) q st).
Proof. exact strip_mine_dyn_works. Qed.
Print Assumptions C52_strip_mine_dynamic.

(** [traverser(s...).order(strip_mine<d, M, m>(n)).for_each(f)] visits every element once: strip after strip, and inside a strip
    in the original order.  (This determines the sequence of visits.) *)
Theorem C52_strip_mine_traversal : forall ss d M m k y l1 l2,
  let u := Union ss in let t := order (traverser ss) (p_strip_mine d M m k) in
  vz k = Some y -> 0 < y -> (forall c, on_len (plen u nolens c d) (fun n => n mod y = 0)) ->
  uswf (top_struct t) = true -> lenok (top_struct t) nolens ->
  for_each (traverser ss) [] = Done l1 -> for_each t [] = Done l2 -> (forall st, In st l2 -> complete u st) ->
  Permutation (map (index_list u) l1) (map (index_list u) l2) /\
  StronglySorted lexlt (map (fun st => asg_of st d / y :: index_list u st) l2).
Proof. exact strip_mine_traversal. Qed.
Print Assumptions C52_strip_mine_traversal.

(** The same for [strip_mine_dynamic], where the block length need not divide the length. *)
Theorem C52_strip_mine_dynamic_traversal : forall ss d M m p k y l1 l2,
  let u := Union ss in let t := order (traverser ss) (p_strip_mine_dynamic d M m p k) in
  vz k = Some y -> 0 < y -> (forall c, on_len (plen u nolens c d) (fun n => n + y <= W)) ->
  uswf (top_struct t) = true -> lenok (top_struct t) nolens ->
  for_each (traverser ss) [] = Done l1 -> for_each t [] = Done l2 -> (forall st, In st l2 -> complete u st) ->
  Permutation (map (index_list u) l1) (map (index_list u) l2) /\
  StronglySorted lexlt (map (fun st => asg_of st d / y :: index_list u st) l2).
Proof. exact strip_mine_dyn_traversal. Qed.
Print Assumptions C52_strip_mine_dynamic_traversal.

(** A 2 x 4 and a 2 x 5 matrix, strips of 2 columns. *)
Definition strip_m (n : Z) : struct := vec 1 (Dyn 2) (vec 2 (Dyn n) (Scalar int4)).
Definition strip_l (p : proto) (n : Z) : list state := match for_each (order (traverser [strip_m n]) p) [] with Done l => l | _ => [] end.

Example C52_ex :
  (let s := apply (p_into_blocks 2 3 4 (Dyn 2)) (strip_m 4) in
   signature s <> None /\ offset s (idx [(1, Dyn 1); (3, Dyn 1); (4, Dyn 0)]) = Some (Dyn 24) /\ length_ s 3 [] = Some (Dyn 2) /\ length_ s 4 [] = Some (Dyn 2)) /\
  (let s := apply (p_into_blocks_dynamic 2 3 4 5 (Dyn 2)) (strip_m 5) in
   signature s <> None /\ offset s (idx [(1, Dyn 0); (3, Dyn 2); (4, Dyn 0); (5, Dyn 0)]) = Some (Dyn 16) /\ length_ s 3 [] = Some (Dyn 3) /\
   length_ s 5 (idx [(3, Dyn 2); (4, Dyn 1)]) = Some (Dyn 0)) /\
  (let s := apply (p_merge_blocks 1 2 3 (Dyn 4)) (vec 1 (Dyn 2) (Vector 2 (Scalar int4))) in
   signature s <> None /\ offset s (idx [(3, Dyn 6)]) = Some (Dyn 24) /\ length_ s 3 [] = Some (Dyn 8) /\ size_ s [] = Some (Dyn 32)) /\
  (let s := apply (p_bcast [(3, Dyn 7); (4, Dyn 9)]) (strip_m 4) in
   signature s <> None /\ offset s (idx [(3, Dyn 6); (1, Dyn 1); (4, Dyn 1); (2, Dyn 3)]) = Some (Dyn 28) /\ length_ s 3 [] = Some (Dyn 7) /\ length_ s 4 [] = Some (Dyn 9) /\ size_ s [] = Some (Dyn 32)).
Proof. repeat split; vm_compute; congruence. Qed.

Example C52_traversal_ex :
  (let t := order (traverser [strip_m 4]) (p_strip_mine 2 3 4 (Dyn 2)) in
   (forall c, on_len (plen (Union [strip_m 4]) nolens c 2) (fun n => n mod 2 = 0)) /\ uswf (top_struct t) = true /\ lenok (top_struct t) nolens /\
   for_each t [] = Done (strip_l (p_strip_mine 2 3 4 (Dyn 2)) 4) /\ (forall st, In st (strip_l (p_strip_mine 2 3 4 (Dyn 2)) 4) -> complete (Union [strip_m 4]) st) /\
   map (index_list (Union [strip_m 4])) (strip_l (p_strip_mine 2 3 4 (Dyn 2)) 4) = [[0; 0]; [0; 1]; [1; 0]; [1; 1]; [0; 2]; [0; 3]; [1; 2]; [1; 3]]) /\
  (let t := order (traverser [strip_m 5]) (p_strip_mine_dynamic 2 3 4 5 (Dyn 2)) in
   (forall c, on_len (plen (Union [strip_m 5]) nolens c 2) (fun n => n + 2 <= W)) /\ uswf (top_struct t) = true /\ lenok (top_struct t) nolens /\
   for_each t [] = Done (strip_l (p_strip_mine_dynamic 2 3 4 5 (Dyn 2)) 5) /\ (forall st, In st (strip_l (p_strip_mine_dynamic 2 3 4 5 (Dyn 2)) 5) -> complete (Union [strip_m 5]) st) /\
   map (index_list (Union [strip_m 5])) (strip_l (p_strip_mine_dynamic 2 3 4 5 (Dyn 2)) 5) = [[0; 0]; [0; 1]; [1; 0]; [1; 1]; [0; 2]; [0; 3]; [1; 2]; [1; 3]; [0; 4]; [1; 4]]).
Proof.
  cbv zeta. split; (split; [intros c; match goal with |- on_len ?x _ => let y := eval vm_compute in x in replace x with y by (vm_compute; reflexivity) end; simpl; try rewrite W_eq; lia|]);
    (split; [vm_compute; reflexivity|]); (split; [apply lenokb_sound; vm_compute; reflexivity|]); (split; [vm_compute; reflexivity|]); (split; [apply completeb_sound; vm_compute; reflexivity|]); vm_compute; reflexivity.
Qed.
