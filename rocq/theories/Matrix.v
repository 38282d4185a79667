(** * The matrix example (examples/matrix/matrix.cpp and noarr_matrix_functions.hpp)

    Definitions only.  Loops over the indices of two dimensions, written by hand, that access the elements of bags with [at<'n', 'm'>(i, j)].
    Simplifications: a matrix is a bag whose elements have the size of [int] (four bytes, little-endian, two's complement); the text that is printed is
    left out, only the accesses made for it are modelled; memory never runs out; an [assert] that fails is [Undefined] (it aborts the program, or does
    nothing if [NDEBUG] is defined). *)

From Verif Require Export Bag SpecBag.

(** [for (std::size_t i = lo; i < hi; i++) a = f(i, a);] *)
Fixpoint repeat_from {A} (k : nat) (i : Z) (f : Z -> A -> outcome A) (a : A) : outcome A :=
  match k with O => Done a | S k => out_bind (f i a) (repeat_from k (i + 1) f) end.
Definition for_range {A} (lo hi : Z) (f : Z -> A -> outcome A) (a : A) : outcome A := repeat_from (Z.to_nat (hi - lo)) lo f a.

(** Arithmetic on [int]: overflow is undefined behaviour. *)
Definition int_ok (z : Z) : bool := (- 2 ^ 31 <=? z) && (z <? 2 ^ 31).
Definition int_mul (a b : Z) : outcome Z := if int_ok (a * b) then Done (a * b) else Undefined.
Definition int_add (a b : Z) : outcome Z := if int_ok (a + b) then Done (a + b) else Undefined.
Definition int_bytes (z : Z) : bytes := le_bytes 4 z.
Definition int_value (v : bytes) : Z := if le_value v <? 2 ^ 31 then le_value v else le_value v - 2 ^ 32.
Definition must (b : bool) : outcome unit := if b then Done tt else Undefined.

(** ['n'] and ['m'] *)
Definition dn : dim := 110.
Definition dm : dim := 109.
(** [at<'n', 'm'>(i, j)] (interop/bag.hpp 172-175, base/funcs.hpp 119-152) *)
Definition at_nm (i j : Z) : state := [(Idx dn, Dyn i); (Idx dm, Dyn j)].
Definition get_int (b : bag) (i j : Z) : outcome Z :=
  out_bind (bag_read b (at_nm i j)) (fun v => if Z.of_nat (List.length v) =? 4 then Done (int_value v) else Rejected).
Definition put_int (b : bag) (i j z : Z) : outcome bag := bag_write b (at_nm i j) (int_bytes z).
(** [bag.length<Dim>()] (interop/bag.hpp 216-221) *)
Definition len_of (b : bag) (d : dim) : outcome Z :=
  match length_ (bg_struct b) d [] with Some v => match vz v with Some n => Done n | None => Undefined end | None => Rejected end.
(** [int& value = bag.at(...)] needs data that are not const. *)
Definition writable (b : bag) : bool := match bg_policy b with ConstRaw => false | _ => true end.
Definition need (b : bool) : outcome unit := if b then Done tt else Rejected.

(** noarr_matrix_functions.hpp 19-48 *)
Definition noarr_multiply (a b : bag) (s : struct) : outcome bag :=
  out_bind (need (writable a && writable b)) (fun _ =>
  out_bind (make_bag s) (fun result =>
  out_bind (len_of a dn) (fun x1 => out_bind (len_of a dm) (fun y1 => out_bind (len_of b dn) (fun x2 => out_bind (len_of b dm) (fun y2 =>
  out_bind (must (x1 =? y2)) (fun _ =>
  for_range 0 x2 (fun i => for_range 0 y1 (fun j result =>
    out_bind (for_range 0 x1 (fun k sum =>
      out_bind (get_int a k j) (fun v1 => out_bind (get_int b i k) (fun v2 => out_bind (int_mul v1 v2) (int_add sum)))) 0)
    (put_int result i j))) result))))))).

(** noarr_matrix_functions.hpp 57-68: the lengths are asked for before each iteration; they do not change. *)
Definition noarr_copy (source : bag) (s : struct) : outcome bag :=
  out_bind (make_bag s) (fun result =>
  out_bind (len_of source dn) (fun x => out_bind (len_of source dm) (fun y =>
  for_range 0 x (fun i => for_range 0 y (fun j result => out_bind (get_int source i j) (put_int result i j))) result))).

(** noarr_matrix_functions.hpp 75-91; [std::swap] is [tmp = v1; v1 = v2; v2 = tmp]. *)
Definition swap_ints (b : bag) (i j : Z) : outcome bag :=
  out_bind (get_int b i j) (fun tmp => out_bind (get_int b j i) (fun v2 => out_bind (put_int b i j v2) (fun b => put_int b j i tmp))).
Definition noarr_transpose (b : bag) : outcome bag :=
  out_bind (len_of b dn) (fun x => out_bind (len_of b dm) (fun y => out_bind (must (x =? y)) (fun _ =>
  for_range 0 x (fun i => for_range i y (fun j b => swap_ints b i j)) b))).

(** noarr_matrix_functions.hpp 99-107 *)
Definition noarr_scale (b : bag) (scalar : Z) : outcome bag :=
  out_bind (len_of b dn) (fun x => out_bind (len_of b dm) (fun y =>
  for_range 0 x (fun i => for_range 0 y (fun j b => out_bind (get_int b i j) (fun v => out_bind (int_mul v scalar) (put_int b i j)))) b)).

(** matrix.cpp 31-63: [classic_matrix] *)
Record classic := { cl_n : Z; cl_m : Z; cl_ary : list Z }.
(** matrix.cpp 48-49: [ary[n_ + m_ * n]]; an index that is not in the vector is undefined behaviour. *)
Definition cl_pos (c : classic) (i j : Z) : Z := u64 (i + j * cl_n c).
Definition cl_get (c : classic) (i j : Z) : outcome Z := match nthz (cl_ary c) (cl_pos c i j) with Some v => Done v | None => Undefined end.
Definition cl_put (c : classic) (i j v : Z) : outcome classic :=
  let p := cl_pos c i j in
  match nthz (cl_ary c) p with
  | Some _ => Done {| cl_n := cl_n c; cl_m := cl_m c; cl_ary := firstn (Z.to_nat p) (cl_ary c) ++ v :: skipn (S (Z.to_nat p)) (cl_ary c) |}
  | None => Undefined
  end.
(** matrix.cpp 51-63: [print] *)
Definition cl_print (c : classic) : outcome unit :=
  for_range 0 (cl_n c) (fun i => for_range 0 (cl_m c) (fun j u => out_map (fun _ => u) (cl_get c i j))) tt.

(** matrix.cpp 73-85: [rand i] is what the [i]-th call of [rand] returns. *)
Definition random_classic (n m : Z) (rand : Z -> Z) : classic :=
  {| cl_n := n; cl_m := m; cl_ary := map (fun i => Z.rem (rand i) 10) (zseq (u64 (n * m))) |}.

(** matrix.cpp 94-112 *)
Definition equal_classic (c1 c2 : classic) : outcome bool :=
  if negb (cl_n c1 =? cl_n c2) then Done false else if negb (cl_m c1 =? cl_m c2) then Done false else
  for_range 0 (u64 (cl_n c1 * cl_m c1)) (fun i same =>
    if same : bool then match nthz (cl_ary c1) i, nthz (cl_ary c2) i with Some a, Some b => Done (a =? b) | _, _ => Undefined end else Done false) true.

(** matrix.cpp 121-138 *)
Definition to_classic (b : bag) (rand : Z -> Z) : outcome classic :=
  out_bind (len_of b dn) (fun x => out_bind (len_of b dm) (fun y =>
  for_range 0 x (fun i => for_range 0 y (fun j c => out_bind (get_int b i j) (cl_put c i j))) (random_classic x y rand))).

(** matrix.cpp 147-159 *)
Definition from_classic (c : classic) (s : struct) : outcome bag :=
  out_bind (make_bag s) (fun target =>
  for_range 0 (cl_n c) (fun i => for_range 0 (cl_m c) (fun j b => out_bind (cl_get c i j) (put_int b i j))) target).

(** matrix.cpp 168-189 *)
Definition classic_multiply (a b : classic) (rand : Z -> Z) : outcome classic :=
  out_bind (must (cl_n a =? cl_m b)) (fun _ =>
  for_range 0 (cl_n b) (fun i => for_range 0 (cl_m a) (fun j result =>
    out_bind (for_range 0 (cl_n a) (fun k sum =>
      out_bind (cl_get a k j) (fun v1 => out_bind (cl_get b i k) (fun v2 => out_bind (int_mul v1 v2) (int_add sum)))) 0)
    (cl_put result i j))) (random_classic (cl_n b) (cl_m a) rand)).

(** matrix.cpp 197-226.  The result is what the final assertion tests. *)
Definition matrix_demo (size : Z) (s : struct) (r1 r2 r3 r4 : Z -> Z) : outcome bool :=
  let c1 := random_classic size size r1 in
  out_bind (cl_print c1) (fun _ =>
  let c2 := random_classic size size r2 in
  out_bind (cl_print c2) (fun _ =>
  out_bind (from_classic c1 s) (fun n1 => out_bind (from_classic c2 s) (fun n2 =>
  out_bind (classic_multiply c1 c2 r3) (fun result => out_bind (cl_print result) (fun _ =>
  out_bind (noarr_multiply n1 n2 s) (fun noarr_result =>
  out_bind (to_classic noarr_result r4) (fun back => out_bind (cl_print back) (fun _ =>
  equal_classic result back))))))))).

(** matrix.cpp 21-22, 269-272: [matrix_rows() ^ set_length<'n'>(size) ^ set_length<'m'>(size)] *)
Definition int_t : cty := {| ct_id := 1; ct_size := 4; ct_align := 4 |}.
Definition matrix_rows (size : Z) : struct := View (VSetLength dm (Dyn size)) (View (VSetLength dn (Dyn size)) (Vector dm (Vector dn (Scalar int_t)))).
Definition matrix_columns (size : Z) : struct := View (VSetLength dm (Dyn size)) (View (VSetLength dn (Dyn size)) (Vector dn (Vector dm (Scalar int_t)))).

(** matrix.cpp 247-281: [arg] is the number that [std::stoi] read, an [int]; it is converted to [std::size_t].  [None]: the help is printed. *)
Definition matrix_main (rows : bool) (arg : Z) (r1 r2 r3 r4 : Z -> Z) : outcome (option bool) :=
  let size := u64 arg in
  if size <? 1 then Done None else out_map Some (matrix_demo size (if rows then matrix_rows size else matrix_columns size) r1 r2 r3 r4).
