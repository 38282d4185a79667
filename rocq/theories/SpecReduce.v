(** * What the functions given to a reduction should do

    Definitions only. *)

From Verif Require Export SpecRange Reduce.

Definition comm_monoid {V} (op : V -> V -> V) (e : V) : Prop :=
  (forall x y z, op (op x y) z = op x (op y z)) /\ (forall x y, op x y = op y x) /\ (forall x, op x e = x).

(** [place st] is where the output element named by [st] lies; [outs] are the output elements.
    [f_neut] stores the neutral element into one output element, [f_join] adds one output element to the
    same element of the other buffer, and [f_acc] adds to every output element a value that depends on the
    state only (the neutral element, where it does nothing). *)
Record reduces {V} (op : V -> V -> V) (e : V) (place : state -> Z) (outs : list state) (adds : state -> Z -> V)
    (f_neut f_acc : state -> buffer V -> buffer V) (f_join : state -> buffer V -> buffer V -> buffer V) : Prop := {
  rd_neut : forall st m x, In st outs -> f_neut st m x = if x =? place st then e else m x;
  rd_join : forall st a b x, In st outs -> f_join st a b x = if x =? place st then op (a x) (b x) else a x;
  rd_acc : forall st m x, In x (map place outs) -> f_acc st m x = op (m x) (adds st x) }.

(** The order of the entries of the state does not matter. *)
Definition respects {V} (adds : state -> Z -> V) : Prop := forall st st' x, same_get st st' -> adds st x = adds st' x.
