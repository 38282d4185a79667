(** * Programs that name elements by their indices

    Definitions only.  A program that uses bags as the documentation recommends: it reads and writes elements by naming their
    indices, asks for lengths of dimensions, and goes through the indices in an order that it states itself.  What it does next
    may depend on everything it has seen.  It does not mention the structures of the bags, so that the same program is used with
    any of them (README.md 55-71: "If we define a matrix with a different layout, the same access code will work").  Simplifications: the bags do
    not share memory; the function passed to [for_each] is given the indices, in the order in which it is called, so that
    [bag[state]] is [bag[idx<Dims...>(indices)]]. *)

From Verif Require Export Bag Matrix Protos.

(** How the program states the order: [reorder<Dims...>()] (structs/views.hpp 134-211) or [hoist<Dims...>()] (structs/views.hpp
    230-335, README.md 87-98) for all the dimensions, outermost first. *)
Inductive way := Reordered | Hoisted.
Definition stated (w : way) (ds : list dim) : proto := match w with Reordered => [LView (VReorder ds)] | Hoisted => p_hoist ds end.

Inductive program (A : Type) : Type :=
| Return (a : A)
| Read (b : nat) (st : state) (k : bytes -> program A)            (* [bag[state]] as a value (interop/bag.hpp 172-190) *)
| Write (b : nat) (st : state) (v : bytes) (k : program A)        (* [bag[state] = v] (interop/bag.hpp 172-190) *)
| Length (b : nat) (d : dim) (k : Z -> program A)                 (* [bag.length<Dim>()] (interop/bag.hpp 216-221) *)
| ForEach (bs : list nat) (w : way) (ds : list dim) (k : list (list Z) -> program A).
  (* [traverser(bags...) ^ reorder<Dims...>() | f] (extra/traverser.hpp 183-201): the indices of the calls, in order *)
Arguments Return {A} a.
Arguments Read {A} b st k.
Arguments Write {A} b st v k.
Arguments Length {A} b d k.
Arguments ForEach {A} bs w ds k.

Fixpoint put {A} (n : nat) (x : A) (l : list A) : list A :=
  match n, l with
  | O, _ :: l => x :: l
  | S n, y :: l => y :: put n x l
  | _, [] => []
  end.

(** The calls of the function. *)
Definition calls_in (bs : list bag) (w : way) (ds : list dim) : outcome (list state) :=
  for_each (order (traverser (map bg_struct bs)) (stated w ds)) [].

Definition with_bag {A} (bags : list bag) (b : nat) (f : bag -> outcome A) : outcome A :=
  match nth_error bags b with Some x => f x | None => Rejected end.

(** What the program returns and what the bags have afterwards. *)
Fixpoint exec {A} (p : program A) (bags : list bag) : outcome (A * list bag) :=
  match p with
  | Return a => Done (a, bags)
  | Read b st k => with_bag bags b (fun x => out_bind (bag_read x st) (fun v => exec (k v) bags))
  | Write b st v k => with_bag bags b (fun x => out_bind (bag_write x st v) (fun x' => exec k (put b x' bags)))
  | Length b d k => with_bag bags b (fun x => out_bind (len_of x d) (fun n => exec (k n) bags))
  | ForEach bs w ds k =>
      match omap (nth_error bags) bs with
      | Some xs => out_bind (calls_in xs w ds) (fun sts => exec (k (map (fun st => map (asg_of st) ds) sts)) bags)
      | None => Rejected
      end
  end.
