(** * [vectors_like] (C43) *)

From Verif Require Export RowMajor Good SpecTrav.

Lemma p_vectors_like_inv ds s st : forall p, p_vectors_like ds s st = Some p ->
  exists l, p = p_vectors l /\ map fst l = ds /\ Forall (fun x => length_ s (fst x) st = Some (snd x)) l.
Proof.
  unfold p_vectors_like. induction ds as [|d ds IH]; intros p E; simpl in E.
  - injection E as <-. exists []. repeat split. constructor.
  - destruct (p_vector_like d s st) as [p1|] eqn:E1; [|discriminate]. destruct (omap _ ds) as [ps|] eqn:E2; [|discriminate]. simpl in *.
    injection E as <-. destruct (IH _ eq_refl) as (l & El & Em & F).
    unfold p_vector_like in E1. destruct (length_ s d st) as [n|] eqn:En; [|discriminate]. injection E1 as <-.
    exists ((d, n) :: l). split; [unfold p_vectors; simpl; unfold p_vectors in El; rewrite El; reflexivity|]. split; [simpl; congruence|].
    constructor; assumption.
Qed.

Fixpoint alook (q : dim) (l : list (dim * val)) : option val :=
  match l with [] => None | (d, n) :: r => if d =? q then Some n else alook q r end.

Definition odefb {A} (x : option A) : bool := match x with Some _ => true | None => false end.

Lemma rows_length c l : forall q st, has (Idx q) st = false ->
  fst (lenops (rows c l)) q st = Some (odefb (alook q l)) /\ snd (lenops (rows c l)) q st = alook q l.
Proof.
  induction l as [|[d n] l IH]; intros q st Hi; [split; reflexivity|].
  cbn [rows vec lenops fst snd]. simpl. rewrite (Z.eqb_sym d q). destruct (Z.eqb_spec q d) as [->|Hne].
  - assert (H : has (Len d) [(Len d, n)] = true) by (unfold has; simpl; rewrite Z.eqb_refl; reflexivity).
    rewrite !has_with, get_with, Hi, H. simpl. rewrite Z.eqb_refl. split; reflexivity.
  - destruct (IH q (remove [Idx d; Len d] (with_ [(Len d, n)] st))) as [E1 E2].
    { rewrite has_remove, has_with, Hi. cbn. rewrite andb_false_r. reflexivity. }
    rewrite E1, E2. split; [reflexivity|]. destruct (alook q l); reflexivity.
Qed.

Lemma alook_In q n l : NoDup (map fst l) -> In (q, n) l -> alook q l = Some n.
Proof.
  induction l as [|[d m] l IH]; simpl; intros Hn; [tauto|]. inversion Hn as [|? ? H1 H2]; subst. intros [E|H].
  - injection E as -> ->. rewrite Z.eqb_refl. reflexivity.
  - destruct (Z.eqb_spec d q) as [->|]; [|auto]. exfalso. apply H1. apply (in_map fst) in H. exact H.
Qed.

Lemma seq_path sg : sdep_dims sg = [] -> forall a, exists ds, sig_dim_seq sg = Some ds /\ spath sg a = Some (map (fun d => (d, None)) (rev ds)).
Proof.
  induction sg as [c| |d al r IH|d rs IH] using sig_ind'; intros H a; try discriminate; try (exists []; split; reflexivity).
  simpl in *. destruct (IH H a) as (ds & E1 & E2). exists (ds ++ [d]). rewrite E1, E2, rev_app_distr. split; reflexivity.
Qed.

Lemma snodup_seq sg : forall ds, sdep_dims sg = [] -> snodup sg = true -> sig_dim_seq sg = Some ds ->
  NoDup ds /\ (forall d, In d ds <-> any_accept d sg = true).
Proof.
  induction sg as [c| |d al r IH|d rs IH] using sig_ind'; intros ds H Hn E; try discriminate;
    try (injection E as <-; split; [constructor|intros d; simpl; intuition discriminate]).
  simpl in H, Hn, E. rewrite andb_true_iff, negb_true_iff in Hn. destruct Hn as [Hd Hn].
  destruct (sig_dim_seq r) as [l|]; [|discriminate]. injection E as <-. destruct (IH l H Hn eq_refl) as [N I].
  split.
  - rewrite <- (rev_involutive (l ++ [d])), rev_app_distr. apply NoDup_rev. simpl. constructor; [|apply NoDup_rev; exact N].
    rewrite <- in_rev, I. congruence.
  - intros q. rewrite in_app_iff, I. simpl. rewrite orb_true_iff, Z.eqb_eq. intuition.
Qed.

Lemma rsig_path c l a : spath (rsig c l) a = Some (map (fun d => (d, None)) (map fst l)).
Proof. induction l as [|[d n] l IH]; [reflexivity|]. simpl. rewrite IH. reflexivity. Qed.

Lemma vectors_like_same s st c p : nodep s = true ->
  distinct_dims s ->
  p_vectors_like_all s st = Some p ->
  (forall st', dims_of (apply p (Scalar c)) st' = dims_of s st') /\
  (forall q st' ds, dims_of s st' = Some ds -> In q (map fst ds) -> has (Idx q) st' = false ->
     length_ (apply p (Scalar c)) q st' = length_ s q st).
Proof.
  unfold nodep, distinct_dims, p_vectors_like_all, dims_of. destruct (signature s) as [sg|]; [|discriminate]. intros H Hn E. simpl in E.
  assert (Hd : sdep_dims sg = []) by (destruct (sdep_dims sg); [reflexivity|discriminate]). clear H.
  destruct (sig_dim_seq sg) as [ds|] eqn:Es; [|discriminate]. simpl in E.
  assert (E' : p_vectors_like ds s st = Some p) by (destruct ds; [discriminate|exact E]). clear E.
  destruct (snodup_seq sg ds Hd Hn Es) as [N I].
  destruct (p_vectors_like_inv _ _ _ _ E') as (l & -> & <- & F). rewrite vectors_rows.
  assert (N' : NoDup (map fst (rev l))) by (rewrite map_rev; apply NoDup_rev; exact N).
  rewrite (rows_signature c _ N'). simpl. 
  assert (P : forall a, spath sg a = Some (map (fun d => (d, None)) (map fst (rev l)))).
  { intros a. destruct (seq_path sg Hd a) as (ds & E1 & E2). rewrite Es in E1. injection E1 as <-. rewrite E2, (map_rev fst). reflexivity. }
  split.
  - intros st'. rewrite rsig_path. symmetry. apply P.
  - intros q st' ds Eds Hq Hi. rewrite P in Eds. injection Eds as <-. unfold length_. destruct (rows_length c (rev l) q st' Hi) as [_ ->].
    rewrite map_map, map_id in Hq. apply in_map_iff in Hq. destruct Hq as ([q' n] & E & Hin). simpl in E. subst q'.
    rewrite (alook_In q n _ N' Hin). symmetry. rewrite Forall_forall in F. apply in_rev in Hin. exact (F _ Hin).
Qed.
