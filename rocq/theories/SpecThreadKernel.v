(** * Loops over bags in threads: specification (C65)

    Definitions only. *)

From Coq Require Export Permutation.
From Verif Require Export SpecRange SpecRace ThreadKernel SpecSectionKernel.

(** The parts together make the calls [calls], in some order; states are compared by what they give for each dimension. *)
Definition make_calls (works : list (list state)) (calls : list state) : Prop :=
  exists sched, Permutation calls sched /\ Forall2 same_get sched (concat works).

(** No two of the parts update the same element of an output with the dimensions [lo]. *)
Definition own_elements (lo : list (dim * Z)) (works : list (list state)) : Prop :=
  ForallOrdPairs (fun w w' => forall st st', In st w -> In st' w' -> exists d, In d (map fst lo) /\ asg_of st d <> asg_of st' d) works.

(** When the threads have finished, however they took turns, the bag satisfies [P]; and until then each of them can make its next step. *)
Definition always_gives (ths : list (list prog)) (b : bag) (P : bag -> Prop) : Prop :=
  forall ths' b', steps ths b ths' b' ->
    (forall before p r after, ths' = before ++ (p :: r) :: after -> p = Stop \/ exists q b'', acts p b' q b'') /\
    (finished ths' -> P b').
