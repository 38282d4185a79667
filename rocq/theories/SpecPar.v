(** * Threads that work on one bag

    Definitions only.  The body of a parallel loop reads and writes elements of a bag.  What it reads from
    other, constant data is part of the program.  Threads take turns in any order; each turn is one read
    or one write of an element. *)

From Verif Require Export SpecBag SpecRange.

(** What is left of one call of the body. *)
Inductive prog :=
| Stop
| Load (st : state) (k : bytes -> prog)
| Store (st : state) (v : bytes) (k : prog).

(** One read or write. *)
Inductive acts : prog -> bag -> prog -> bag -> Prop :=
| acts_load b st k v : bag_read b st = Done v -> acts (Load st k) b (k v) b
| acts_store b st v k b' : bag_write b st v = Done b' -> acts (Store st v k) b k b'.

(** A thread is the call it is in, followed by the calls it has still to make.  Some thread makes a step. *)
Inductive step : list (list prog) -> bag -> list (list prog) -> bag -> Prop :=
| step_next ths ths' r b : step (ths ++ (Stop :: r) :: ths') b (ths ++ r :: ths') b
| step_acts ths ths' p q r b b' : acts p b q b' -> step (ths ++ (p :: r) :: ths') b (ths ++ (q :: r) :: ths') b'.

Inductive steps : list (list prog) -> bag -> list (list prog) -> bag -> Prop :=
| steps_refl ths b : steps ths b ths b
| steps_more ths b ths' b' ths'' b'' : steps ths b ths' b' -> step ths' b' ths'' b'' -> steps ths b ths'' b''.

Definition finished (ths : list (list prog)) : Prop := Forall (eq []) ths.

(** One call after another. *)
Fixpoint run (p : prog) (b : bag) : outcome bag :=
  match p with
  | Stop => Done b
  | Load st k => out_bind (bag_read b st) (fun v => run (k v) b)
  | Store st v k => out_bind (bag_write b st v) (run k)
  end.
Fixpoint run_all (ps : list prog) (b : bag) : outcome bag :=
  match ps with [] => Done b | p :: r => out_bind (run p b) (run_all r) end.

(** The calls one after another, as one program. *)
Fixpoint followed_by (p q : prog) : prog :=
  match p with
  | Stop => q
  | Load st k => Load st (fun v => followed_by (k v) q)
  | Store st v k => Store st v (followed_by k q)
  end.
Definition in_turn (ps : list prog) : prog := fold_right followed_by Stop ps.

(** All elements the program reads or writes are in [P]. *)
Fixpoint touches_only (P : state -> Prop) (p : prog) : Prop :=
  match p with
  | Stop => True
  | Load st k => P st /\ forall v, touches_only P (k v)
  | Store st _ k => P st /\ touches_only P k
  end.

(** However the threads take turns: as long as a thread is not finished, each of the unfinished threads can make its
    next step (no access is undefined), and when all are finished the bag is [result]. *)
Definition always_ends_in (ths : list (list prog)) (b result : bag) : Prop :=
  forall ths' b', steps ths b ths' b' ->
    (forall before p r after, ths' = before ++ (p :: r) :: after -> p = Stop \/ exists q b'', acts p b' q b'') /\
    (finished ths' -> b' = result).
