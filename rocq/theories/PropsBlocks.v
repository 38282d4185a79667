(** * C19 - C22: blocks and the Z-curve *)

From Coq Require Import Permutation.
From Verif Require Import Views5 Check PropsLayout PropsOrder PropsViews.

(** ** C19: into_blocks and merge_blocks *)

(** The block length is given: index (block, position) is index block * length + position. *)
Theorem C19_blocks : forall d M m t st st' lm, signature (View (VBlocks d M m) t) <> None ->
  get (Len m) st = Some lm -> get (Len M) st = None ->
  forall iM im, get (Idx M) st = Some iM -> get (Idx m) st = Some im ->
  edited st ((Idx d, Some (vadd (vmul iM lm) im)) :: dropped [d; M; m]) st' ->
  works_as (View (VBlocks d M m) t) st t st' /\
  (forall q, q <> d -> q <> M -> q <> m -> get (Idx q) st = None -> length_as (View (VBlocks d M m) t) q st t q st').
Proof. exact blocks_follows. Qed.
Print Assumptions C19_blocks.

Theorem C19_blocks_lengths : forall d M m t st cs lm l, signature (View (VBlocks d M m) t) <> None ->
  get (Len m) st = Some lm -> get (Len M) st = None -> edited st (dropped [d; M; m]) cs -> length_ t d cs = Some l ->
  (get (Idx m) st = None -> length_ (View (VBlocks d M m) t) m st = Some lm) /\
  (get (Idx M) st = None -> length_ (View (VBlocks d M m) t) M st = Some (vdiv l lm)).
Proof. exact blocks_lengths. Qed.
Print Assumptions C19_blocks_lengths.

(** The number of blocks is given. *)
Theorem C19_count : forall d M m t st cs st' lM l, signature (View (VBlocks d M m) t) <> None ->
  get (Len m) st = None -> get (Len M) st = Some lM -> edited st (dropped [d; M; m]) cs -> length_ t d cs = Some l ->
  forall iM im, get (Idx M) st = Some iM -> get (Idx m) st = Some im ->
  edited st ((Idx d, Some (vadd (vmul iM (vdiv l lM)) im)) :: dropped [d; M; m]) st' ->
  works_as (View (VBlocks d M m) t) st t st' /\
  (forall q, q <> d -> q <> M -> q <> m -> get (Idx q) st = None -> length_as (View (VBlocks d M m) t) q st t q st').
Proof. exact blocks_follows_M. Qed.
Print Assumptions C19_count.

Theorem C19_count_lengths : forall d M m t st cs lM l, signature (View (VBlocks d M m) t) <> None ->
  get (Len m) st = None -> get (Len M) st = Some lM -> edited st (dropped [d; M; m]) cs -> length_ t d cs = Some l ->
  get (Idx m) st = None \/ get (Idx M) st = None ->
  (get (Idx m) st = None -> length_ (View (VBlocks d M m) t) m st = Some (vdiv l lM)) /\
  (get (Idx M) st = None -> length_ (View (VBlocks d M m) t) M st = Some lM).
Proof. exact blocks_lengths_M. Qed.
Print Assumptions C19_count_lengths.

(** Both are given. *)
Theorem C19_both : forall d M m t st st' lM lm, signature (View (VBlocks d M m) t) <> None ->
  get (Len m) st = Some lm -> get (Len M) st = Some lM ->
  forall iM im, get (Idx M) st = Some iM -> get (Idx m) st = Some im ->
  edited st ([(Idx d, Some (vadd (vmul iM lm) im)); (Len d, Some (vmul lM lm))] ++ dropped [M; m]) st' ->
  works_as (View (VBlocks d M m) t) st t st'.
Proof. exact blocks_follows_both. Qed.
Print Assumptions C19_both.

(** Merging: index i is (i / length, i mod length), the length is the product. *)
Theorem C19_merge : forall d M m t st cs st' lM lm i, signature (View (VMerge M m d) t) <> None ->
  edited st (dropped [d; M; m]) cs -> length_ t M cs = Some lM -> length_ t m cs = Some lm ->
  get (Idx d) st = Some i ->
  edited st ([(Idx M, Some (vdiv i lm)); (Idx m, Some (vmod i lm))] ++ dropped [d; M; m]) st' ->
  works_as (View (VMerge M m d) t) st t st' /\
  (forall q, q <> d -> q <> M -> q <> m -> get (Idx q) st = None -> length_as (View (VMerge M m d) t) q st t q st').
Proof. exact merge_follows. Qed.
Print Assumptions C19_merge.

Theorem C19_merge_length : forall d M m t st cs lM lm, signature (View (VMerge M m d) t) <> None ->
  edited st (dropped [d; M; m]) cs -> length_ t M cs = Some lM -> length_ t m cs = Some lm ->
  unused d st -> length_ (View (VMerge M m d) t) d st = Some (vmul lM lm).
Proof. exact merge_length. Qed.
Print Assumptions C19_merge_length.

(** Splitting into blocks of [k] and merging back gives the original dimension (named [e], which may
    be [d]); if [k] divides the length, also the original length. *)
Theorem C19_merge_after_split : forall d M m e k y t st cs l x st',
  let s := View (VMerge M m e) (View (VSetLength m k) (View (VBlocks d M m) t)) in
  signature s <> None -> vz k = Some y -> 0 < y ->
  edited st (dropped [d; e; M; m]) cs -> length_ t d cs = Some l ->
  get (Idx e) st = Some (Dyn x) -> 0 <= x < W ->
  edited st ((Idx d, Some (Dyn x)) :: dropped [d; e; M; m]) st' ->
  works_as s st t st'.
Proof. exact merge_blocks_inverse. Qed.
Print Assumptions C19_merge_after_split.

Theorem C19_merge_after_split_length : forall d M m e k y t st cs l n,
  let s := View (VMerge M m e) (View (VSetLength m k) (View (VBlocks d M m) t)) in
  signature s <> None -> vz k = Some y -> 0 < y ->
  edited st (dropped [d; e; M; m]) cs -> length_ t d cs = Some l -> vz l = Some n -> n mod y = 0 ->
  unused e st -> exists w, length_ s e st = Some w /\ vz w = Some n.
Proof. exact merge_blocks_length. Qed.
Print Assumptions C19_merge_after_split_length.

(** Merging [M] and [m] and splitting again into blocks of the length of [m]. *)
Theorem C19_split_after_merge : forall d M m e f k y t st cs lM nM st' a b,
  let s := View (VSetLength f k) (View (VBlocks d e f) (View (VMerge M m d) t)) in
  signature s <> None -> get (Len e) st = None ->
  edited st (dropped [d; e; f; M; m]) cs -> length_ t M cs = Some lM -> length_ t m cs = Some k -> vz lM = Some nM -> vz k = Some y -> nM * y <= W ->
  get (Idx e) st = Some (Dyn a) -> get (Idx f) st = Some (Dyn b) -> 0 <= a < nM -> 0 <= b < y ->
  edited st ([(Idx M, Some (Dyn a)); (Idx m, Some (Dyn b))] ++ dropped [d; e; f; M; m]) st' ->
  works_as s st t st'.
Proof. exact blocks_merge_inverse. Qed.
Print Assumptions C19_split_after_merge.

(** Pairs of indices correspond one-to-one to the indices of the split dimension. *)
Theorem C19_once : forall n y, 0 < y -> 0 <= n -> n mod y = 0 ->
  (forall a b, 0 <= a < n / y -> 0 <= b < y -> 0 <= a * y + b < n) /\
  (forall x, 0 <= x < n -> exists! ab, (0 <= fst ab < n / y /\ 0 <= snd ab < y) /\ x = fst ab * y + snd ab).
Proof. exact blocks_cover. Qed.
Print Assumptions C19_once.

(** A traversal of the split or of the merged dimension visits every element once. *)
Theorem C19_blocks_traversal : forall ss l1 l2 d M m k y,
  let u := Union ss in let t := order (traverser ss) (p_into_blocks d M m k) in
  vz k = Some y -> 0 < y -> (forall c, on_len (plen u nolens c d) (fun n => n mod y = 0)) ->
  uswf (top_struct t) = true -> lenok (top_struct t) nolens ->
  for_each (traverser ss) [] = Done l1 -> for_each t [] = Done l2 -> (forall st, In st l2 -> complete u st) ->
  Permutation (map (index_list u) l1) (map (index_list u) l2).
Proof. exact blocks_traversal. Qed.
Print Assumptions C19_blocks_traversal.

Theorem C19_merge_traversal : forall ss l1 l2 M m d,
  let u := Union ss in let t := order (traverser ss) [LView (VMerge M m d)] in
  (forall c x y, plen u nolens c M = Some x -> plen u nolens c m = Some y -> x * y < W) ->
  uswf (top_struct t) = true -> lenok (top_struct t) nolens ->
  for_each (traverser ss) [] = Done l1 -> for_each t [] = Done l2 -> (forall st, In st l2 -> complete u st) ->
  Permutation (map (index_list u) l1) (map (index_list u) l2).
Proof. exact merge_traversal. Qed.
Print Assumptions C19_merge_traversal.

Definition split2 : struct := View (VSetLength 4 (Dyn 2)) (View (VBlocks 1 3 4) mat).
Definition trav_of (p : proto) : trav := order (traverser [mat]) p.
Example C19_ex :
  signature (View (VBlocks 1 3 4) mat) <> None /\
  offset split2 (idx [(3, Dyn 1); (4, Dyn 1); (2, Dyn 2)]) = Some (Dyn 56) /\ offset mat (at_ 3 2) = Some (Dyn 56) /\
  length_ split2 3 [] = Some (Dyn 3) /\ length_ split2 4 [] = Some (Dyn 2) /\
  signature (View (VMerge 3 4 5) split2) <> None /\ length_ (View (VMerge 3 4 5) split2) 5 [] = Some (Dyn 6) /\
  offset (View (VMerge 3 4 5) split2) (idx [(5, Dyn 3); (2, Dyn 2)]) = Some (Dyn 56) /\
  (let s := View (VSetLength 4 (Dyn 4)) (View (VBlocks 5 3 4) (View (VMerge 1 2 5) mat)) in
   signature s <> None /\ offset s (idx [(3, Dyn 3); (4, Dyn 2)]) = Some (Dyn 56)) /\
  length_ (View (VMerge 1 2 5) mat) 5 [] = Some (Dyn 24).
Proof. repeat split; vm_compute; congruence. Qed.

Example C19_traversal_ex : let t := trav_of (p_into_blocks 1 3 4 (Dyn 2)) in
  (forall c, on_len (plen (Union [mat]) nolens c 1) (fun n => n mod 2 = 0)) /\
  uswf (top_struct t) = true /\ lenok (top_struct t) nolens /\ for_each t [] = Done (done (for_each t [])) /\
  (forall st, In st (done (for_each t [])) -> complete (Union [mat]) st) /\
  uswf (top_struct (trav_of [LView (VMerge 2 1 5)])) = true /\ lenok (top_struct (trav_of [LView (VMerge 2 1 5)])) nolens /\
  map (index_list (Union [mat])) (firstn 3 (done (for_each (trav_of [LView (VMerge 2 1 5)]) []))) = [[0; 0]; [1; 0]; [2; 0]].
Proof.
  cbv zeta. refine (conj _ (conj _ (conj _ (conj _ (conj _ (conj _ (conj _ _))))))).
  - intros c. match goal with |- on_len ?x _ => replace x with (Some 6) by (vm_compute; reflexivity) end. reflexivity.
  - vm_compute. reflexivity.
  - apply lenokb_sound. vm_compute. reflexivity.
  - vm_compute. reflexivity.
  - apply completeb_sound. vm_compute. reflexivity.
  - vm_compute. reflexivity.
  - apply lenokb_sound. vm_compute. reflexivity.
  - vm_compute. reflexivity.
Qed.

(** ** C20: into_blocks_dynamic *)

Theorem C20_blocks : forall d M m p t st st' lm, signature (View (VBlocksDyn d M m p) t) <> None ->
  get (Len p) st = None -> get (Len m) st = Some lm -> get (Len M) st = None ->
  forall iM im ip, get (Idx M) st = Some iM -> get (Idx m) st = Some im -> get (Idx p) st = Some ip ->
  edited st ((Idx d, Some (vadd (vmul iM lm) im)) :: dropped [d; M; m; p]) st' ->
  works_as (View (VBlocksDyn d M m p) t) st t st' /\
  (forall q, q <> d -> q <> M -> q <> m -> q <> p -> get (Idx q) st = None -> length_as (View (VBlocksDyn d M m p) t) q st t q st').
Proof. exact blocks_dyn_follows. Qed.
Print Assumptions C20_blocks.

Theorem C20_lengths : forall d M m p t st cs lm l, signature (View (VBlocksDyn d M m p) t) <> None ->
  get (Len p) st = None -> get (Len m) st = Some lm -> get (Len M) st = None ->
  edited st (dropped [d; M; m; p]) cs -> length_ t d cs = Some l ->
  (get (Idx m) st = None -> length_ (View (VBlocksDyn d M m p) t) m st = Some lm) /\
  (get (Idx M) st = None -> length_ (View (VBlocksDyn d M m p) t) M st = Some (vdiv (vsub (vadd l lm) (Sta 1)) lm)) /\
  (forall iM im, get (Idx M) st = Some iM -> get (Idx m) st = Some im ->
     length_ (View (VBlocksDyn d M m p) t) p st = Some (vlt (vadd (vmul iM lm) im) l)).
Proof. exact blocks_dyn_lengths. Qed.
Print Assumptions C20_lengths.

(** As numbers: the number of blocks is rounded up, and the presence dimension has length 1 inside
    and 0 past the end. *)
Theorem C20_count : forall l lm n y, vz l = Some n -> vz lm = Some y -> 0 < y -> n + y <= W ->
  vz (vdiv (vsub (vadd l lm) (Sta 1)) lm) = Some (ceil_div n y).
Proof. exact vceil_num. Qed.
Print Assumptions C20_count.

Theorem C20_present : forall iM im lm l a b y n, vz iM = Some a -> vz im = Some b -> vz lm = Some y -> vz l = Some n ->
  0 < y -> n + y <= W -> a < ceil_div n y -> b < y -> vz (vlt (vadd (vmul iM lm) im) l) = Some (if a * y + b <? n then 1 else 0).
Proof. exact present_num. Qed.
Print Assumptions C20_present.

Theorem C20_once : forall n y, 0 < y -> 0 <= n ->
  (forall x, 0 <= x < n -> exists! ab, (0 <= fst ab < ceil_div n y /\ 0 <= snd ab < y /\ fst ab * y + snd ab < n) /\ x = fst ab * y + snd ab) /\
  (forall a b, 0 <= a < ceil_div n y -> 0 <= b < y -> 0 <= a * y + b < ceil_div n y * y).
Proof. exact blocks_dyn_cover. Qed.
Print Assumptions C20_once.

Theorem C20_traversal : forall ss l1 l2 d M m p k y,
  let u := Union ss in let t := order (traverser ss) (p_into_blocks_dynamic d M m p k) in
  vz k = Some y -> 0 < y -> (forall c, on_len (plen u nolens c d) (fun n => n + y <= W)) ->
  uswf (top_struct t) = true -> lenok (top_struct t) nolens ->
  for_each (traverser ss) [] = Done l1 -> for_each t [] = Done l2 -> (forall st, In st l2 -> complete u st) ->
  Permutation (map (index_list u) l1) (map (index_list u) l2).
Proof. exact blocks_dyn_traversal. Qed.
Print Assumptions C20_traversal.

(** Blocks of 4 in 6 elements: the last two positions are absent. *)
Example C20_ex : let s := View (VSetLength 4 (Dyn 4)) (View (VBlocksDyn 1 3 4 5) mat) in let t := trav_of (p_into_blocks_dynamic 1 3 4 5 (Dyn 4)) in
  signature (View (VBlocksDyn 1 3 4 5) mat) <> None /\ length_ s 3 [] = Some (Dyn 2) /\
  length_ s 5 (idx [(3, Dyn 1); (4, Dyn 1)]) = Some (Dyn 1) /\ length_ s 5 (idx [(3, Dyn 1); (4, Dyn 2)]) = Some (Dyn 0) /\
  offset s (idx [(3, Dyn 1); (4, Dyn 1); (5, Dyn 0); (2, Dyn 2)]) = Some (Dyn 88) /\ offset mat (at_ 5 2) = Some (Dyn 88) /\
  (forall c, on_len (plen (Union [mat]) nolens c 1) (fun n => n + 4 <= W)) /\
  uswf (top_struct t) = true /\ lenok (top_struct t) nolens /\ for_each t [] = Done (done (for_each t [])) /\
  (forall st, In st (done (for_each t [])) -> complete (Union [mat]) st) /\
  List.length (done (for_each t [])) = 24%nat.
Proof.
  cbv zeta. refine (conj _ (conj _ (conj _ (conj _ (conj _ (conj _ (conj _ (conj _ (conj _ (conj _ (conj _ _))))))))))); 
    try match goal with |- _ = _ => vm_compute; reflexivity | |- _ <> _ => vm_compute; congruence end.
  - intros c. match goal with |- on_len ?x _ => replace x with (Some 6) by (vm_compute; reflexivity) end. vm_compute. discriminate.
  - apply lenokb_sound. vm_compute. reflexivity.
  - apply completeb_sound. vm_compute. reflexivity.
Qed.

(** ** C21: into_blocks_static *)

Theorem C21_blocks : forall d b M m k t st cs st' l, signature (View (VBlocksSta d b M m k) t) <> None ->
  get (Len b) st = None -> get (Len M) st = None -> get (Len m) st = None ->
  edited st (dropped [d; b; M; m]) cs -> length_ t d cs = Some l ->
  forall part iM im, get (Idx b) st = Some (Sta part) -> (part = 0 \/ part = 1) -> get (Idx M) st = Some iM -> get (Idx m) st = Some im ->
  edited st ((Idx d, Some (vadd (vmul (if part =? 0 then iM else vdiv l k) k) im)) :: dropped [d; b; M; m]) st' ->
  works_as (View (VBlocksSta d b M m k) t) st t st' /\
  (forall q, q <> d -> q <> b -> q <> M -> q <> m -> get (Idx q) st = None -> length_as (View (VBlocksSta d b M m k) t) q st t q st').
Proof. exact blocks_sta_follows. Qed.
Print Assumptions C21_blocks.

Theorem C21_lengths : forall d b M m k t st cs l, signature (View (VBlocksSta d b M m k) t) <> None ->
  get (Len b) st = None -> get (Len M) st = None -> get (Len m) st = None ->
  edited st (dropped [d; b; M; m]) cs -> length_ t d cs = Some l -> get (Idx M) st = None -> get (Idx m) st = None ->
  (get (Idx b) st = None -> length_ (View (VBlocksSta d b M m k) t) b st = Some (Sta 2)) /\
  (get (Idx b) st = Some (Sta 0) ->
     length_ (View (VBlocksSta d b M m k) t) M st = Some (vdiv l k) /\ length_ (View (VBlocksSta d b M m k) t) m st = Some k) /\
  (get (Idx b) st = Some (Sta 1) ->
     length_ (View (VBlocksSta d b M m k) t) M st = Some (Sta 1) /\ length_ (View (VBlocksSta d b M m k) t) m st = Some (vmod l k)).
Proof. exact blocks_sta_lengths. Qed.
Print Assumptions C21_lengths.

Theorem C21_once : forall n y, 0 < y -> 0 <= n ->
  (forall e, sta_inside n y e -> 0 <= sta_index n y e < n) /\
  (forall x, 0 <= x < n -> exists! e, sta_inside n y e /\ x = sta_index n y e).
Proof. exact blocks_sta_cover. Qed.
Print Assumptions C21_once.

Theorem C21_traversal : forall ss l1 l2 d b M m k,
  let u := Union ss in let t := order (traverser ss) [LView (VBlocksSta d b M m k)] in
  uswf (top_struct t) = true -> lenok (top_struct t) nolens ->
  for_each (traverser ss) [] = Done l1 -> for_each t [] = Done l2 -> (forall st, In st l2 -> complete u st) ->
  Permutation (map (index_list u) l1) (map (index_list u) l2).
Proof. exact blocks_sta_traversal. Qed.
Print Assumptions C21_traversal.

Example C21_ex : let s := View (VBlocksSta 1 3 4 5 (Sta 4)) mat in let t := trav_of [LView (VBlocksSta 1 3 4 5 (Sta 4))] in
  signature s <> None /\ length_ s 4 (idx [(3, Sta 0)]) = Some (Dyn 1) /\ length_ s 5 (idx [(3, Sta 0)]) = Some (Sta 4) /\
  length_ s 5 (idx [(3, Sta 1)]) = Some (Dyn 2) /\
  offset s (idx [(3, Sta 1); (4, Dyn 0); (5, Dyn 1); (2, Dyn 2)]) = Some (Dyn 88) /\ offset mat (at_ 5 2) = Some (Dyn 88) /\
  uswf (top_struct t) = true /\ lenok (top_struct t) nolens /\ for_each t [] = Done (done (for_each t [])) /\
  (forall st, In st (done (for_each t [])) -> complete (Union [mat]) st) /\
  List.length (done (for_each t [])) = 24%nat.
Proof.
  cbv zeta. refine (conj _ (conj _ (conj _ (conj _ (conj _ (conj _ (conj _ (conj _ (conj _ (conj _ _)))))))))); 
    try match goal with |- _ = _ => vm_compute; reflexivity | |- _ <> _ => vm_compute; congruence end.
  - apply lenokb_sound. vm_compute. reflexivity.
  - apply completeb_sound. vm_compute. reflexivity.
Qed.

(** ** C22: merge_zcurve *)

Theorem C22_zcurve : forall sl gl d ds t st cs st' ls i, signature (View (VZCurve sl gl d ds) t) <> None ->
  edited st ((Idx d, None) :: dropped ds) cs -> omap (fun q => length_ t q cs) ds = Some ls -> get (Idx d) st = Some i ->
  edited st (combine (map Idx ds) (map Some (zc_indices sl gl i ls)) ++ (Idx d, None) :: dropped ds) st' ->
  works_as (View (VZCurve sl gl d ds) t) st t st' /\
  (forall q, q <> d -> get (Idx q) st = None -> length_as (View (VZCurve sl gl d ds) t) q st t q st').
Proof. exact zcurve_follows. Qed.
Print Assumptions C22_zcurve.

Theorem C22_length : forall sl gl d ds t st cs ls ns, signature (View (VZCurve sl gl d ds) t) <> None ->
  edited st ((Idx d, None) :: dropped ds) cs -> omap (fun q => length_ t q cs) ds = Some ls -> omap vz ls = Some ns ->
  get (Idx d) st = None -> prodl ns < W -> Forall (fun n => 0 <= n) ns ->
  exists l, length_ (View (VZCurve sl gl d ds) t) d st = Some l /\ vz l = Some (prodl ns).
Proof. exact zcurve_length. Qed.
Print Assumptions C22_length.

(** The indices of the merged dimension correspond one-to-one to the tuples of indices.  [zc_good]:
    the lengths are multiples of 2^sl, at most 2^gl, and the volumes fit 64 bits. *)
Theorem C22_once : forall sl gl ls ns, (sl <= gl < 64)%nat -> (2 <= List.length ns <= 32)%nat -> (sl * List.length ns < 32)%nat ->
  omap vz ls = Some ns -> Forall (fun n => 0 < n < W) ns -> zc_good sl gl ns ->
  (forall i z, vz i = Some z -> z < prodl ns -> exists xs, zc_indices sl gl i ls = map Dyn xs /\ Forall2 (fun x n => 0 <= x < n) xs ns) /\
  (forall xs, Forall2 (fun x n => 0 <= x < n) xs ns -> exists! z, 0 <= z < prodl ns /\ zc_indices sl gl (Dyn z) ls = map Dyn xs).
Proof. exact zcurve_bijection. Qed.
Print Assumptions C22_once.

(** The [sl] low bits of the indices are interleaved in the low bits of the merged index. *)
Theorem C22_bits : forall sl gl i z ls ns xs k b, (2 <= List.length ns <= 32)%nat -> (sl * List.length ns < 32)%nat ->
  vz i = Some z -> omap vz ls = Some ns -> zc_indices sl gl i ls = map Dyn xs ->
  (k < List.length ns)%nat -> 0 <= b < Z.of_nat sl ->
  Z.testbit (nth k xs 0) b = Z.testbit z (Z.of_nat (List.length ns) * b + (Z.of_nat (List.length ns) - 1 - Z.of_nat k)).
Proof. exact zcurve_bits_of. Qed.
Print Assumptions C22_bits.

Theorem C22_traversal : forall ss l1 l2 sl gl d ds,
  let u := Union ss in let t := order (traverser ss) [LView (VZCurve sl gl d ds)] in
  (forall c ns, omap (plen u nolens c) ds = Some ns -> zc_good sl gl ns) ->
  uswf (top_struct t) = true -> lenok (top_struct t) nolens ->
  for_each (traverser ss) [] = Done l1 -> for_each t [] = Done l2 -> (forall st, In st l2 -> complete u st) ->
  Permutation (map (index_list u) l1) (map (index_list u) l2).
Proof. exact zcurve_traversal. Qed.
Print Assumptions C22_traversal.

(** A 6 x 4 matrix, at most 8, aligned to 2. *)
Example C22_ex : let s := View (VZCurve 1 3 5 [1; 2]) mat in let t := trav_of [LView (VZCurve 1 3 5 [1; 2])] in
  signature s <> None /\ length_ s 5 [] = Some (Dyn 24) /\ zc_good 1 3 [6; 4] /\
  offset s (idx [(5, Dyn 13)]) = Some (Dyn 44) /\ zc_indices 1 3 (Dyn 13) [Dyn 6; Dyn 4] = [Dyn 2; Dyn 3] /\ offset mat (at_ 2 3) = Some (Dyn 44) /\
  uswf (top_struct t) = true /\ lenok (top_struct t) nolens /\ for_each t [] = Done (done (for_each t [])) /\
  (forall st, In st (done (for_each t [])) -> complete (Union [mat]) st) /\
  map (index_list (Union [mat])) (firstn 8 (done (for_each t []))) = [[0; 0]; [0; 1]; [1; 0]; [1; 1]; [0; 2]; [0; 3]; [1; 2]; [1; 3]].
Proof.
  cbv zeta. refine (conj _ (conj _ (conj _ (conj _ (conj _ (conj _ (conj _ (conj _ (conj _ (conj _ _)))))))))); 
    try match goal with |- _ = _ => vm_compute; reflexivity | |- _ <> _ => vm_compute; congruence end.
  - split; [repeat constructor; vm_compute; congruence|]. split; [vm_compute; reflexivity|].
    intros a x b E. destruct a as [|a0 [|a1 [|a2 a]]]; try discriminate E; injection E as <-; subst; vm_compute; reflexivity.
  - apply lenokb_sound. vm_compute. reflexivity.
  - apply completeb_sound. vm_compute. reflexivity.
Qed.
