(** * Views of different dimensions: specification *)

From Verif Require Export SpecViews.

(** The views that change dimension [d] without looking at what is below them: [fix], [set_length],
    [shift], [slice], [span], [step], [bcast] and [hoist]. *)
Definition changes (v : view) (d : dim) : Prop :=
  setter v d \/ (exists b, moves_by v d b) \/ (exists b r, v = VStep d b r) \/ v = VBcast d \/ v = VHoist d.

(** The structures [s] and [t] cannot be told apart when used with the state [st]: same size,
    alignment and offsets, and the same lengths of all dimensions that have no index. *)
Definition alike (s t : struct) (st : state) : Prop :=
  works_as s st t st /\ forall q, get (Idx q) st = None -> length_as s q st t q st.

(** As [works_as], but only elements are located in the structures. *)
Definition elements_as (s : struct) (st : state) (t : struct) (st' : state) : Prop :=
  has_size s st = has_size t st' /\ size_ s st = size_ t st' /\ align_ s st = align_ t st' /\
  (forall c, has_offset_of (Scalar c) s st = has_offset_of (Scalar c) t st' /\
     forall start, offset_of (Scalar c) s st start = offset_of (Scalar c) t st' start) /\
  (forall o o', offset s st = Some o -> offset t st' = Some o' -> o = o').
