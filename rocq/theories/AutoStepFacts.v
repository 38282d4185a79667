(** * Step without a dimension: proofs *)

From Verif Require Export AutoStep ReduceFacts.

Lemma range_top t r : range_of t = Done r -> top_dim (top_struct t) = Some (rg_dim r).
Proof.
  unfold range_of. destruct (top_dim (top_struct t)) as [d|]; [|discriminate]. unfold range_of_dim. destruct (length_ (top_struct t) d []) as [v|]; [|discriminate].
  destruct (vz v); [|discriminate]. intros H. injection H as <-. reflexivity.
Qed.

Lemma auto_dim t r b n : range_of t = Done r -> auto_order t b n = Some (order t [LView (VStep (rg_dim r) b n)]).
Proof. intros H. unfold auto_order, auto_step. rewrite (range_top t r H). reflexivity. Qed.

Theorem auto_workers ss p r n l : let t := order (traverser ss) p in
  distinct_dims (top_struct t) -> range_of t = Done r -> for_each t [] = Done l -> 0 < n < W -> rg_end r + n <= W ->
  exists ws, Forall2 (fun k w => auto_order t (Dyn k) (Dyn n) = Some w) (zseq n) ws /\ calls_once ws l.
Proof.
  intros t Hd Hr Hl Hn Hw. eexists. split; [|exact (strided_calls ss p r n l Hd Hr Hl Hn Hw)]. induction (zseq n) as [|k ks IH]; constructor; [apply auto_dim, Hr|exact IH].
Qed.

Theorem group ss p r n l : let t := order (traverser ss) p in
  distinct_dims (top_struct t) -> range_of t = Done r -> for_each t [] = Done l -> 0 < n < W -> rg_end r + n <= W ->
  calls_once (map (fun k => order t (cuda_step (rg_dim r) k n)) (zseq n)) l /\
  Forall (fun k => cuda_auto_order t k n = Some (order t (cuda_step (rg_dim r) k n))) (zseq n).
Proof.
  intros t Hd Hr Hl Hn Hw. split; [exact (strided_calls ss p r n l Hd Hr Hl Hn Hw)|]. apply Forall_forall. intros k _. apply auto_dim, Hr.
Qed.
