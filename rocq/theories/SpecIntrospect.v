(** * What the introspection queries should answer

    Definitions only. *)

From Verif Require Export Spec Introspect.

(** Equal as numbers of type [std::size_t]. *)
Definition same_word (x y : Z) : Prop := x mod 2 ^ 64 = y mod 2 ^ 64.

(** The two states differ in nothing but the index of [q]. *)
Definition differ_in (q : dim) (st1 st2 : state) : Prop := forall t, t <> Idx q -> get t st1 = get t st2.

(** A state that gives the lengths of [st] and some of its indices, but not that of [q]. *)
Definition with_fewer_indices (q : dim) (st0 st : state) : Prop :=
  same_lengths st0 st /\ forall d v, get (Idx d) st0 = Some v -> d <> q /\ get (Idx d) st = Some v.

(** Below every view on the way to [q], the new index is computed from lengths that do not themselves
    depend on the index of [q], and [q] was not merged from several dimensions. *)
Fixpoint steady (q : dim) (s : struct) : bool :=
  match s with
  | Scalar _ => true
  | Tuple _ ts => forallb (steady q) ts
  | Vector d t => (q =? d) || steady q t
  | View v t =>
      match v with
      | VBcast d => (q =? d) || steady q t
      | VReverse d => ((q =? d) || negb (mem q (ldeps t d))) && steady q t
      | VBlocks d M m => negb (mem q (ldeps t d)) && steady (if (q =? M) || (q =? m) then d else q) t
      | VBlocksDyn d M m p =>
          (q =? p) || negb (mem q (ldeps t d)) && steady (if (q =? M) || (q =? m) then d else q) t
      | VBlocksSta d b M m _ => negb (mem q (ldeps t d)) && steady (if (q =? M) || (q =? m) then d else q) t
      | VMerge M m d => negb (q =? d) && negb (mem q (ldeps t m)) && steady q t
      | VZCurve _ _ d ds => negb (q =? d) && negb (mem q (flat_map (ldeps t) ds)) && steady q t
      | VRename ps => steady (rename_in ps q) t
      | VJoin _ _ _ => false
      | _ => steady q t
      end
  | Union _ => false
  end.

(** No [step] over another dimension on the way to [q]. *)
Fixpoint own_steps (q : dim) (s : struct) : bool :=
  match s with
  | Scalar _ | Tuple _ _ | Union _ => true
  | Vector d t => (q =? d) || own_steps q t
  | View v t =>
      match v with
      | VBcast d => (q =? d) || own_steps q t
      | VStep d _ _ => (q =? d) && own_steps q t
      | VBlocks d M m | VBlocksSta d _ M m _ => own_steps (if (q =? M) || (q =? m) then d else q) t
      | VBlocksDyn d M m p => (q =? p) || own_steps (if (q =? M) || (q =? m) then d else q) t
      | VRename ps => own_steps (rename_in ps q) t
      | _ => own_steps q t
      end
  end.

(** The state gives the index [i] in dimension [q]. *)
Definition at_index (st : state) (q : dim) (i : Z) : Prop := exists w, get (Idx q) st = Some w /\ vz w = Some i.
