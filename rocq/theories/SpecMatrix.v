(** * The matrix example: specification (C62)

    Definitions only. *)

From Verif Require Export Layout SpecKernel Matrix.

Definition is_int (z : Z) : Prop := - 2 ^ 31 <= z < 2 ^ 31.

(** A layout of matrices of [int] with [n] columns and [m] rows: any structure with these two dimensions in which no two elements share memory, and
    whose size is known and whose elements can be accessed with run-time indices. *)
Definition int_matrix (s : struct) (n m : Z) : Prop :=
  cube s [(dn, n); (dm, m)] /\ sound_struct s /\ nobcast s = true /\ get_size s [] <> None /\
  forall i j, exists c o, scalar_t s (at_nm i j) = Some c /\ ct_size c = 4 /\ offset s (at_nm i j) = Some o.

(** The bag is an [n] by [m] matrix with the elements [A i j]. *)
Definition holds (b : bag) (n m : Z) (A : Z -> Z -> Z) : Prop :=
  int_matrix (bg_struct b) n m /\ enough_data b /\
  forall i j, 0 <= i < n -> 0 <= j < m -> is_int (A i j) /\ get_int b i j = Done (A i j).
(** So is the classic matrix. *)
Definition classic_holds (c : classic) (n m : Z) (A : Z -> Z -> Z) : Prop :=
  cl_n c = n /\ cl_m c = m /\ 0 <= n < W /\ 0 <= m < W /\ n * m < W /\ Z.of_nat (List.length (cl_ary c)) = n * m /\
  forall i j, 0 <= i < n -> 0 <= j < m -> is_int (A i j) /\ nthz (cl_ary c) (j * n + i) = Some (A i j).

(** The element of the product at column [i] and row [j], with [l] terms. *)
Definition product (A B : Z -> Z -> Z) (l : Z) (i j : Z) : Z := sum l (fun k => A k j * B i k).
(** The products and the partial sums are in the range of [int]. *)
Definition no_overflow (A B : Z -> Z -> Z) (n1 n2 m1 : Z) : Prop :=
  forall i j k, 0 <= i < n2 -> 0 <= j < m1 -> 0 <= k < n1 -> is_int (A k j * B i k) /\ is_int (product A B (k + 1) i j).
