(** * Moving the indices of a state: specification

    Definitions only. *)

From Verif Require Export SpecOrder SpecUnion.

(** Differences within the margins [m], in either direction, each for another one of the dimensions.  A negative
    difference is a word above 2^63. *)
Definition within (m : list (dim * val)) (l : list (dim * val)) : Prop :=
  NoDup (map fst l) /\
  forall d x, In (d, x) l -> exists off z, In (d, off) m /\ vz x = Some (u64 z) /\ Z.abs z <= vzd off.

(** A value that is not a compile-time constant. *)
Definition runtime (v : val) : bool := match v with Sta _ => false | _ => true end.

(** The opposite differences. *)
Definition opposite (l l' : list (dim * val)) : Prop :=
  Forall2 (fun x y => fst x = fst y /\ exists a b, vz (snd x) = Some a /\ vz (snd y) = Some b /\ (a + b) mod W = 0) l l'.

(** No length of the structure depends on the indices of the dimensions [ds]. *)
Definition fixed_lengths (s : struct) (ds : list dim) : Prop := forall d q, In d ds -> ~ In d (ldeps s q).

(** The state has the indices of one of the elements in [l]. *)
Definition visited (s : struct) (l : list state) (st : state) : Prop :=
  exists e, In e l /\ dims_of s st = dims_of s e /\ index_list s st = index_list s e /\
    forall d, has_dim s d -> exists i x, get (Idx d) st = Some i /\ vz i = Some x.
