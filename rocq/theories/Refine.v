(** * The model of the code refines the integer reading *)

From Verif Require Export Lib StateFacts Sem.

(** Induction over structures with nested lists. *)
Lemma struct_ind' (P : struct -> Prop)
  (HS : forall c, P (Scalar c))
  (HT : forall d ts, Forall P ts -> P (Tuple d ts))
  (HV : forall d t, P t -> P (Vector d t))
  (HW : forall v t, P t -> P (View v t))
  (HU : forall ts, Forall P ts -> P (Union ts)) : forall s, P s.
Proof.
  fix IH 1. intros [c|d ts|d t|v t|ts].
  - apply HS.
  - apply HT. induction ts as [|t ts IHts]; constructor; [apply IH|exact IHts].
  - apply HV, IH.
  - apply HW, IH.
  - apply HU. induction ts as [|t ts IHts]; constructor; [apply IH|exact IHts].
Qed.


Lemma vagree_vzd v : vagree v (vzd v).
Proof. unfold vagree, vzd. destruct (vz v); auto. Qed.

Lemma vagree_vadd a b x y : vagree a x -> vagree b y -> vagree (vadd a b) (u64 (x + y)).
Proof. unfold vagree. rewrite vz_vadd. destruct (vz a), (vz b); intros; subst; auto. Qed.

Lemma vagree_vsub a b x y : vagree a x -> vagree b y -> vagree (vsub a b) (u64 (x - y)).
Proof. unfold vagree. rewrite vz_vsub. destruct (vz a), (vz b); intros; subst; auto. Qed.

Lemma vagree_vmul a b x y : vagree a x -> vagree b y -> vagree (vmul a b) (u64 (x * y)).
Proof.
  unfold vagree. intros Ha Hb. destruct (vz a) as [x'|] eqn:Ea, (vz b) as [y'|] eqn:Eb; subst.
  - rewrite (vz_vmul _ _ _ _ Ea Eb). reflexivity.
  - destruct b; try discriminate. destruct a as [z|z|]; simpl; unfold is_sta; simpl; auto.
    destruct (Z.eqb_spec (u64 z) 0) as [E|]; simpl in *; [|auto].
    injection Ea as Ea. rewrite <- Ea, E. reflexivity.
  - destruct a; try discriminate. destruct b as [z|z|]; simpl; unfold is_sta; simpl; auto.
    destruct (Z.eqb_spec (u64 z) 0) as [E|]; simpl in *; [|auto].
    injection Eb as Eb. rewrite <- Eb, E, Z.mul_0_r. reflexivity.
  - destruct a, b; try discriminate. simpl. auto.
Qed.

Lemma vagree_vdiv a b x y : vagree a x -> vagree b y -> vagree (vdiv a b) (x / y).
Proof.
  unfold vagree. intros Ha Hb. destruct (vz a) as [x'|] eqn:Ea, (vz b) as [y'|] eqn:Eb; subst.
  - destruct (Z.eq_dec y 0) as [->|Hy].
    + destruct (vdiv_by_zero _ _ _ Ea Eb) as [->|[Hs ->]]; simpl; auto.
      apply is_sta_vz in Hs. rewrite Hs in Ea. injection Ea as <-. reflexivity.
    + rewrite (vz_vdiv _ _ _ _ Ea Eb Hy). reflexivity.
  - destruct b; try discriminate. destruct a as [z|z|]; simpl; unfold is_sta, dyn2nz; simpl; auto.
    destruct (Z.eqb_spec (u64 z) 0) as [E|]; simpl in *; [|auto].
    injection Ea as Ea. rewrite <- Ea, E. reflexivity.
  - destruct a; try discriminate. destruct b as [z|z|]; simpl; unfold is_sta, dyn2nz; simpl; auto.
  - destruct a, b; try discriminate. simpl. auto.
Qed.

Lemma vagree_vmod a b x y : vagree a x -> vagree b y -> vagree (vmod a b) (x mod y).
Proof.
  unfold vagree. intros Ha Hb. destruct (vz a) as [x'|] eqn:Ea, (vz b) as [y'|] eqn:Eb; subst.
  - destruct (Z.eq_dec y 0) as [->|Hy].
    + destruct a as [za|za|], b as [zb|zb|]; try discriminate; simpl in Ea, Eb;
        injection Ea as Ea; injection Eb as Eb; unfold vmod, is_sta, dyn2nz; simpl;
        rewrite ?Ea, ?Eb; simpl; auto.
      * destruct (Z.eqb_spec x 0) as [->|]; simpl; [reflexivity|]. auto.
    + rewrite (vz_vmod _ _ _ _ Ea Eb Hy). reflexivity.
  - destruct b; try discriminate. destruct a as [z|z|]; simpl; unfold is_sta, dyn2nz; simpl; auto.
    destruct (Z.eqb_spec (u64 z) 0) as [E|]; simpl in *; [|auto].
    injection Ea as Ea. rewrite <- Ea, E. reflexivity.
  - destruct a; try discriminate. destruct b as [z|z|]; simpl; unfold is_sta, dyn2nz; simpl; auto.
  - destruct a, b; try discriminate. simpl. auto.
Qed.

Lemma vagree_Sta z : vagree (Sta z) (u64 z). Proof. reflexivity. Qed.
Lemma vagree_Sta1 : vagree (Sta 1) 1. Proof. reflexivity. Qed.

Lemma vagree_vlt a b x y : vagree a x -> vagree b y -> vagree (vlt a b) (if x <? y then 1 else 0).
Proof.
  unfold vagree, vlt. destruct (vz a), (vz b); intros; subst; auto. simpl.
  destruct (x <? y); reflexivity.
Qed.

Lemma vagree_vceil a b x y : vagree a x -> vagree b y -> vagree (vceil a b) (u64 (x + y - 1) / y).
Proof.
  intros Ha Hb. unfold vceil.
  replace (u64 (x + y - 1)) with (u64 (u64 (x + y) - 1)) by apply u64_sub_l.
  apply vagree_vdiv; [|exact Hb]. apply vagree_vsub; [apply vagree_vadd; assumption|apply vagree_Sta1].
Qed.

Lemma agree_of st : agree st (lenv_of st) (asg_of st).
Proof.
  split.
  - intros d. unfold lenv_of. destruct (get (Len d) st); simpl; auto using vagree_vzd.
  - intros d v E. unfold asg_of. rewrite E. apply vagree_vzd.
Qed.

Lemma agree_len_Some st l a d v : agree st l a -> get (Len d) st = Some v -> exists x, l d = Some x /\ vagree v x.
Proof. intros [H _] E. specialize (H d). rewrite E in H. destruct (l d); [eauto|contradiction]. Qed.
Lemma agree_len_None st l a d : agree st l a -> get (Len d) st = None -> l d = None.
Proof. intros [H _] E. specialize (H d). rewrite E in H. destruct (l d); [contradiction|reflexivity]. Qed.
Lemma agree_len_None' st l a d : agree st l a -> l d = None -> get (Len d) st = None.
Proof. intros [H _] E. specialize (H d). rewrite E in H. destruct (get _ _); [contradiction|reflexivity]. Qed.

(** Removing indices keeps agreement. *)
Lemma agree_mono st st' l a :
  agree st l a ->
  (forall d, get (Len d) st' = get (Len d) st) ->
  (forall d v, get (Idx d) st' = Some v -> get (Idx d) st = Some v) -> agree st' l a.
Proof. intros [H1 H2] HL HI. split; intros d; [rewrite HL; auto|eauto]. Qed.

(** Assignments may be replaced pointwise. *)
Lemma agree_ext st l l' a a' : agree st l a -> (forall d, l d = l' d) -> (forall d, a d = a' d) -> agree st l' a'.
Proof. intros [H1 H2] Hl Ha. split; intros d; rewrite <- ?Hl; [auto|intros v; rewrite <- Ha; auto]. Qed.

(** What the sub-structure must satisfy. *)
Definition ln_agrees (ln : ln_t) (il : lenv -> asg -> dim -> Z) (P : lenv -> Prop) : Prop :=
  forall st l a q v, P l -> agree st l a -> ln q st = Some v -> vagree v (il l a q).

Ltac teq := cbn [tag_eqb tag_mem existsb get fst snd negb orb andb map].

(** Case analysis on every dimension comparison in the goal. *)
Ltac eqdims :=
  repeat match goal with
  | |- context [Z.eqb ?a ?b] => destruct (Z.eqb_spec a b); subst; teq; try congruence
  end.

Ltac getl H :=   (* find the lengths of present/absent [Len] items *)
  repeat match goal with
  | E : get (Len ?d) ?st = Some ?v |- _ =>
      lazymatch goal with
      | _ : vagree v _ |- _ => fail
      | _ => let x := fresh "x" in let Hx := fresh "Hx" in let Hv := fresh "Hv" in
             destruct (agree_len_Some _ _ _ _ _ H E) as (x & Hx & Hv)
      end
  | E : get (Len ?d) ?st = None |- _ =>
      lazymatch goal with
      | _ : ?l d = None |- _ => fail
      | _ => let Hx := fresh "Hx" in pose proof (agree_len_None _ _ _ _ H E) as Hx
      end
  end.

Lemma agree_clean_blocks d M m st l a l1 :
  agree st l a ->
  (forall q, q <> d -> q <> M -> q <> m -> l1 q = l q) ->
  l1 d = None -> l1 M = None -> l1 m = None ->
  agree (clean_blocks d M m st) l1 a.
Proof.
  intros [H1 H2] E Ed EM Em. unfold clean_blocks. split; intros q.
  - rewrite get_remove; teq. specialize (H1 q). eqdims; rewrite ?Ed, ?EM, ?Em; simpl; auto.
    rewrite E; auto.
  - intros v. rewrite get_remove; teq. eqdims; auto; discriminate.
Qed.

Lemma fupd_fupd {A} (f : dim -> A) d x y q : fupd (fupd f d x) d y q = fupd f d y q.
Proof. unfold fupd. destruct (q =? d); reflexivity. Qed.

Lemma agree_with_idx st l a d v x :
  agree st l a -> vagree v x -> agree (with_ [(Idx d, v)] st) l (fupd a d x).
Proof.
  intros [H1 H2] Hv. split; intros q; rewrite get_with; teq; [apply H1|].
  unfold fupd. intros w. eqdims. apply H2.
Qed.

Lemma agree_with_len st l a d v x :
  agree st l a -> vagree v x -> agree (with_ [(Len d, v)] st) (fupd l d (Some x)) a.
Proof.
  intros [H1 H2] Hv. split; intros q; rewrite get_with; teq; [|apply H2].
  unfold fupd. eqdims; [exact Hv|apply H1].
Qed.

Lemma agree_with_len_idx st l a d vl xl vi xi :
  agree st l a -> vagree vl xl -> vagree vi xi ->
  agree (with_ [(Len d, vl); (Idx d, vi)] st) (fupd l d (Some xl)) (fupd a d xi).
Proof.
  intros [H1 H2] Hl Hi. split; intros q; rewrite get_with; teq; unfold fupd.
  - eqdims; [exact Hl|apply H1].
  - intros w. eqdims. apply H2.
Qed.

Lemma agree_with_idx_len st l a d vl xl vi xi :
  agree st l a -> vagree vl xl -> vagree vi xi ->
  agree (with_ [(Idx d, vi); (Len d, vl)] st) (fupd l d (Some xl)) (fupd a d xi).
Proof.
  intros [H1 H2] Hl Hi. split; intros q; rewrite get_with; teq; unfold fupd.
  - eqdims; [exact Hl|apply H1].
  - intros w. eqdims. apply H2.
Qed.

Lemma agree_remove_idx st l a d : agree st l a -> agree (remove [Idx d] st) l a.
Proof.
  intros H. apply (agree_mono _ _ _ _ H); intros q; rewrite get_remove; teq; [reflexivity|].
  intros v. eqdims; auto; discriminate.
Qed.

Lemma agree_remove_both st l a d : agree st l a -> agree (remove [Idx d; Len d] st) (fupd l d None) a.
Proof.
  intros [H1 H2]. split; intros q; rewrite get_remove; teq; unfold fupd.
  - specialize (H1 q). eqdims; simpl; auto.
  - intros v. eqdims; auto; discriminate.
Qed.

(** Overwriting an index that the state does not contain does not disturb agreement. *)
Lemma agree_upd_absent st l a a' :
  agree st l a -> (forall d, get (Idx d) st <> None -> a' d = a d) -> agree st l a'.
Proof.
  intros [H1 H2] E. split; [exact H1|]. intros q v Hq. rewrite E by congruence. auto.
Qed.

Lemma agree_lens st l l' a : agree st l a -> (forall d, l d = l' d) -> agree st l' a.
Proof. intros H E. eapply agree_ext; eauto. Qed.

(** ** Renaming *)

Lemma nodupb_NoDup ds : nodupb ds = true <-> NoDup ds.
Proof.
  induction ds as [|d ds IH]; simpl; [split; [constructor|reflexivity]|].
  rewrite andb_true_iff, negb_true_iff, IH. split.
  - intros [Hm Hn]. constructor; [|exact Hn]. intros Hi. apply mem_In in Hi. congruence.
  - intros H. inv H. split; [|assumption]. destruct (mem d ds) eqn:E; [|reflexivity].
    apply mem_In in E. contradiction.
Qed.

Lemma mem_false d ds : mem d ds = false <-> ~ In d ds.
Proof. rewrite <- mem_In. destruct (mem d ds); intuition congruence. Qed.

Lemma rename_dim_out ps q : ~ In q (map fst ps) -> rename_dim ps q = q.
Proof.
  induction ps as [|[f t] ps IH]; simpl; [reflexivity|]. intros H.
  destruct (Z.eqb_spec q f); [subst; tauto|]. apply IH. tauto.
Qed.

Lemma rename_dim_in ps q : In q (map fst ps) -> In (q, rename_dim ps q) ps.
Proof.
  induction ps as [|[f t] ps IH]; simpl; [tauto|]. intros H.
  destruct (Z.eqb_spec q f); [subst; auto|]. right. apply IH. destruct H; congruence.
Qed.

Lemma rename_dim_pair ps f t : NoDup (map fst ps) -> In (f, t) ps -> rename_dim ps f = t.
Proof.
  induction ps as [|[f' t'] ps IH]; simpl; [tauto|]. intros Hn [E|H]; inv Hn.
  - inv E. rewrite Z.eqb_refl. reflexivity.
  - destruct (Z.eqb_spec f f'); [|auto]. subst. exfalso. apply H2.
    change f' with (fst (f', t)). apply in_map, H.
Qed.

Lemma swap_fst ps : map fst (swap_pairs ps) = map snd ps.
Proof. unfold swap_pairs. rewrite map_map. reflexivity. Qed.
Lemma swap_snd ps : map snd (swap_pairs ps) = map fst ps.
Proof. unfold swap_pairs. rewrite map_map. reflexivity. Qed.
Lemma swap_In ps a b : In (a, b) (swap_pairs ps) <-> In (b, a) ps.
Proof.
  unfold swap_pairs. rewrite in_map_iff. split.
  - intros ([x y] & E & H). simpl in E. inv E. exact H.
  - intros H. exists (b, a). auto.
Qed.

(** The external name under which a sub-structure's dimension is visible. *)
Definition ext_name (ps : list (dim * dim)) (q : dim) : option dim :=
  if mem q (map fst ps) then Some (rename_dim ps q)
  else if mem q (map snd ps) then None else Some q.

Lemma ext_name_spec ps d q :
  NoDup (map fst ps) -> NoDup (map snd ps) ->
  mem d (map snd ps) || negb (mem d (map fst ps)) = true ->
  rename_dim (swap_pairs ps) d = q <-> ext_name ps q = Some d.
Proof.
  intros Hf Hs Hk. unfold ext_name.
  destruct (mem d (map snd ps)) eqn:Ed; simpl in Hk.
  - apply mem_In in Ed. pose proof Ed as Ed'. rewrite <- swap_fst in Ed'. apply rename_dim_in in Ed'.
    apply (proj1 (swap_In _ _ _)) in Ed'. set (i := rename_dim (swap_pairs ps) d) in *. split.
    + intros <-. assert (Hi : In i (map fst ps)) by (change i with (fst (i, d)); apply in_map, Ed').
      apply mem_In in Hi. rewrite Hi. f_equal. apply rename_dim_pair; assumption.
    + destruct (mem q (map fst ps)) eqn:Eq.
      * intros E. injection E as E. apply mem_In in Eq. apply rename_dim_in in Eq. rewrite E in Eq.
        unfold i. apply rename_dim_pair; [rewrite swap_fst; exact Hs|]. apply swap_In, Eq.
      * destruct (mem q (map snd ps)) eqn:Eq2; [discriminate|]. intros E. injection E as ->.
        apply mem_In in Ed. congruence.
  - apply negb_true_iff in Hk.
    rewrite rename_dim_out by (rewrite swap_fst; apply mem_false, Ed). split.
    + intros <-. rewrite Hk, Ed. reflexivity.
    + destruct (mem q (map fst ps)) eqn:Eq.
      * intros E. injection E as E. apply mem_In, rename_dim_in in Eq. rewrite E in Eq.
        apply (in_map snd) in Eq. simpl in Eq. apply mem_In in Eq. congruence.
      * destruct (mem q (map snd ps)); [discriminate|]. congruence.
Qed.

Lemma ext_name_dropped ps d q :
  mem d (map snd ps) || negb (mem d (map fst ps)) = false -> ext_name ps q <> Some d.
Proof.
  intros Hk. apply orb_false_iff in Hk. destruct Hk as [Hs Hf]. apply negb_false_iff in Hf.
  unfold ext_name. destruct (mem q (map fst ps)) eqn:Eq.
  - intros E. injection E as E. apply mem_In, rename_dim_in in Eq. rewrite E in Eq.
    apply (in_map snd) in Eq. simpl in Eq. apply mem_In in Eq. congruence.
  - destruct (mem q (map snd ps)); [discriminate|]. intros E. injection E as ->. congruence.
Qed.

Lemma get_rename_state ps t st :
  NoDup (map fst ps) -> NoDup (map snd ps) ->
  get t (rename_state ps st) =
  match t with
  | Idx q => match ext_name ps q with Some e => get (Idx e) st | None => None end
  | Len q => match ext_name ps q with Some e => get (Len e) st | None => None end
  | Other n => get (Other n) st
  end.
Proof.
  intros Hf Hs. unfold rename_state. induction st as [|[t' v] st IH]; simpl.
  - destruct t; try reflexivity; destruct (ext_name ps d); reflexivity.
  - destruct t' as [d|d|n]; simpl;
      [destruct (mem d (map snd ps) || negb (mem d (map fst ps))) eqn:Ek|
       destruct (mem d (map snd ps) || negb (mem d (map fst ps))) eqn:Ek|]; simpl; rewrite IH; clear IH;
      destruct t as [q|q|n']; simpl; try reflexivity;
      try (destruct (Z.eqb_spec q (rename_dim (swap_pairs ps) d)) as [E|E];
           [symmetry in E; apply ext_name_spec in E; try assumption; rewrite E, Z.eqb_refl; reflexivity|]);
      destruct (ext_name ps q) as [e|] eqn:Ee; try reflexivity;
      destruct (Z.eqb_spec e d); try reflexivity; subst; exfalso;
      first [apply E; symmetry; apply ext_name_spec; assumption | eapply ext_name_dropped; eassumption].
Qed.

Lemma agree_rename ps st l a :
  NoDup (map fst ps) -> NoDup (map snd ps) -> agree st l a ->
  agree (rename_state ps st) (view_lenv (VRename ps) l) (fun q => a (rename_dim ps q)).
Proof.
  intros Hf Hs [H1 H2]. split; intros q; rewrite get_rename_state by assumption; unfold ext_name; simpl.
  - destruct (mem q (map fst ps)); [apply H1|]. destruct (mem q (map snd ps)); [exact I|apply H1].
  - intros v. destruct (mem q (map fst ps)) eqn:Eq; [apply H2|].
    destruct (mem q (map snd ps)); [discriminate|]. rewrite rename_dim_out by (apply mem_false, Eq).
    apply H2.
Qed.

(** ** Z-curve values *)

Lemma omap_vz_agree vs xs : Forall2 vagree vs xs -> forall zs, omap vz vs = Some zs -> zs = xs.
Proof.
  induction 1 as [|v x vs xs Hv _ IH]; simpl; intros zs E; [inv E; reflexivity|].
  unfold vagree in Hv. destruct (vz v) as [y|] eqn:Ev; [|discriminate].
  fold (omap vz vs) in *. destruct (omap vz vs) as [ys|]; [|discriminate]. inv E. f_equal; auto.
Qed.

Lemma omap_vz_Some vs zs : omap vz vs = Some zs -> map Dyn zs = map (fun z => Dyn z) zs /\ omap vz (map Dyn zs) = Some zs.
Proof.
  revert zs. induction vs as [|v vs IH]; simpl; intros zs E; [inv E; auto|].
  fold (omap vz vs) in *. destruct (vz v) as [y|] eqn:Ev; [|discriminate].
  destruct (omap vz vs) as [ys|]; [|discriminate]. inv E. destruct (IH _ eq_refl) as [_ H].
  split; [reflexivity|]. simpl. fold (omap vz). rewrite H, u64_small by (eapply vz_range, Ev). reflexivity.
Qed.

Lemma omap_Forall2_map {A B C} (f : A -> option B) (g : A -> C) (R : B -> C -> Prop) l r :
  omap f l = Some r -> (forall x y, In x l -> f x = Some y -> R y (g x)) -> Forall2 R r (map g l).
Proof.
  intros E H. apply omap_Some_Forall2 in E.
  induction E as [|x y l r Hx _ IH]; simpl; constructor; [apply H; [left; reflexivity|exact Hx]|].
  apply IH. intros; apply H; [right|]; assumption.
Qed.

Lemma zc_indices_length sl gl w ls : List.length (zc_indices sl gl w ls) = List.length ls.
Proof. unfold zc_indices. destruct (vz w), (omap vz ls); rewrite map_length, ?seq_length; reflexivity. Qed.

Lemma zc_indices_agree sl gl i z lens xs :
  vagree i z -> Forall2 vagree lens xs ->
  Forall2 vagree (zc_indices sl gl i lens) (map vzd (zc_indices sl gl (Dyn z) (map Dyn xs))).
Proof.
  intros Hi Hl.
  assert (El : List.length lens = List.length xs) by (clear -Hl; induction Hl; simpl; congruence).
  assert (Hun : forall (A : Type) (l : list A) m, List.length l = List.length m ->
                Forall2 vagree (map (fun _ => Undef) l) m).
  { intros A l. induction l as [|x l IH]; intros [|y m] E; simpl in *; try discriminate; constructor.
    - exact I. - apply IH. lia. }
  assert (Hself : forall vs, Forall2 vagree vs (map vzd vs)).
  { intros vs. induction vs; simpl; constructor; auto using vagree_vzd. }
  assert (Hlen : forall w ls, List.length (zc_indices sl gl w ls) = List.length ls).
  { apply zc_indices_length. }
  unfold zc_indices at 1. unfold vagree in Hi. destruct (vz i) as [y|] eqn:Ei.
  2: { apply Hun. rewrite map_length, Hlen, map_length. exact El. }
  subst y. destruct (omap vz lens) as [ls|] eqn:Els.
  2: { apply Hun. rewrite map_length, Hlen, map_length. exact El. }
  pose proof (omap_vz_agree _ _ Hl _ Els) as ->.
  match goal with |- Forall2 _ ?l ?r => replace r with (map vzd l); [apply Hself|] end.
  f_equal. unfold zc_indices. destruct (omap_vz_Some _ _ Els) as [_ ->].
  simpl. rewrite (u64_small z) by (eapply vz_range, Ei). rewrite map_length, El. reflexivity.
Qed.

Fixpoint alook {A} (q : dim) (l : list (dim * A)) : option A :=
  match l with [] => None | (d, x) :: r => if q =? d then Some x else alook q r end.

Lemma get_combine_idx ds vs q : get (Idx q) (combine (map Idx ds) vs) = alook q (combine ds vs).
Proof.
  revert vs. induction ds as [|d ds IH]; intros [|v vs]; simpl; auto.
  destruct (q =? d); [reflexivity|]. apply IH.
Qed.

Lemma get_combine_len ds vs q : get (Len q) (combine (map Idx ds) vs) = None.
Proof. revert vs. induction ds as [|d ds IH]; intros [|v vs]; simpl; auto. Qed.

Lemma fupds_alook {A} (f : dim -> A) ps q :
  fupds f ps q = match alook q ps with Some x => x | None => f q end.
Proof.
  induction ps as [|[d x] ps IH]; simpl; [reflexivity|].
  unfold fupd. destruct (q =? d); [reflexivity|]. apply IH.
Qed.

Lemma alook_In {A} q (ps : list (dim * A)) x : alook q ps = Some x -> In (q, x) ps.
Proof.
  induction ps as [|[d y] ps IH]; simpl; [discriminate|].
  destruct (Z.eqb_spec q d); [intros E; inv E; auto|auto].
Qed.

Lemma alook_None {A} q (ps : list (dim * A)) : alook q ps = None <-> ~ In q (map fst ps).
Proof.
  induction ps as [|[d y] ps IH]; simpl; [tauto|].
  destruct (Z.eqb_spec q d); subst; [split; [discriminate|tauto]|]. rewrite IH.
  split; [intros H [E|E]; congruence|tauto].
Qed.

Lemma fupds_const {A} (f : dim -> A) ds (x : A) q :
  fupds f (map (fun d => (d, x)) ds) q = if mem q ds then x else f q.
Proof. induction ds as [|d ds IH]; simpl; [reflexivity|]. unfold fupd. destruct (q =? d); auto. Qed.

Lemma alook_combine2 ds vs xs q :
  Forall2 vagree vs xs -> oagree (alook q (combine ds vs)) (alook q (combine ds xs)).
Proof.
  intros H. revert ds. induction H as [|v x vs xs Hv _ IH]; intros [|d ds]; simpl; auto.
  destruct (q =? d); simpl; [exact Hv|apply IH].
Qed.

Lemma tag_mem_Idx_map q ds : tag_mem (Idx q) (map Idx ds) = mem q ds.
Proof. induction ds as [|d ds IH]; simpl; [reflexivity|]. rewrite IH. reflexivity. Qed.
Lemma tag_mem_Len_map q ds : tag_mem (Len q) (map Len ds) = mem q ds.
Proof. induction ds as [|d ds IH]; simpl; [reflexivity|]. rewrite IH. reflexivity. Qed.
Lemma tag_mem_Idx_Len q ds : tag_mem (Idx q) (map Len ds) = false.
Proof. induction ds as [|d ds IH]; simpl; auto. Qed.
Lemma tag_mem_Len_Idx q ds : tag_mem (Len q) (map Idx ds) = false.
Proof. induction ds as [|d ds IH]; simpl; auto. Qed.
Lemma tag_mem_app t a b : tag_mem t (a ++ b) = tag_mem t a || tag_mem t b.
Proof. unfold tag_mem. apply existsb_app. Qed.

Lemma get_clean_zcurve_len d ds st q :
  get (Len q) (clean_zcurve d ds st) = if mem q ds then None else get (Len q) st.
Proof.
  unfold clean_zcurve. rewrite get_remove. change (Idx d :: ?x) with ([Idx d] ++ x).
  rewrite !tag_mem_app, tag_mem_Len_Idx, tag_mem_Len_map. reflexivity.
Qed.
Lemma get_clean_zcurve_idx d ds st q :
  get (Idx q) (clean_zcurve d ds st) = if (q =? d) || mem q ds then None else get (Idx q) st.
Proof.
  unfold clean_zcurve. rewrite get_remove. change (Idx d :: ?x) with ([Idx d] ++ x).
  rewrite !tag_mem_app, tag_mem_Idx_Len, tag_mem_Idx_map. simpl. rewrite !orb_false_r. reflexivity.
Qed.

(** ** The state passed to the sub-structure agrees with the transformed reading *)

Definition view_ok (v : view) (l : lenv) : Prop :=
  match v with
  | VMerge _ _ d => l d = None
  | VRename ps => NoDup (map fst ps) /\ NoDup (map snd ps)
  | _ => True
  end.

Lemma agree_clean_merge M m d st l a :
  agree st l a -> agree (clean_merge M m d st) (view_lenv (VMerge M m d) l) (fupds a [(M, 0); (m, 0)]).
Proof.
  intros [H1 H2]. unfold clean_merge. split; intros q; rewrite get_remove; simpl; unfold fupd.
  - specialize (H1 q). eqdims; simpl; auto.
  - intros v. specialize (H2 q v). eqdims; auto; discriminate.
Qed.

Lemma agree_clean_zcurve d ds st l a s g :
  agree st l a ->
  agree (clean_zcurve d ds st) (view_lenv (VZCurve s g d ds) l) (fupds a (map (fun q => (q, 0)) ds)).
Proof.
  intros [H1 H2]. split; intros q; rewrite ?get_clean_zcurve_len, ?get_clean_zcurve_idx; simpl;
    rewrite fupds_const.
  - specialize (H1 q). destruct (mem q ds); simpl; auto.
  - intros v. specialize (H2 q v). destruct (mem q ds); [rewrite orb_true_r; discriminate|].
    destruct (q =? d); [discriminate|auto].
Qed.

Lemma agree_clean_join x y d st l a :
  agree st l a -> get (Len d) st = None -> agree (clean_join x y d st) (view_lenv (VJoin x y d) l) a.
Proof.
  intros H E. pose proof (agree_len_None _ _ _ _ H E) as El. destruct H as [H1 H2].
  unfold clean_join. split; intros q; rewrite get_remove; simpl; unfold fupd.
  - specialize (H1 q). rewrite El. eqdims; simpl; auto.
  - intros v. specialize (H2 q v). eqdims; auto; discriminate.
Qed.

Section SubState.
  Variables (hl : hl_t) (ln : ln_t) (il : lenv -> asg -> dim -> Z) (P : lenv -> Prop).
  Hypothesis Hln : ln_agrees ln il P.

  Lemma agree_blocks_cs d M m st l a :
    agree st l a -> (get (Len M) st = None \/ get (Len m) st = None) ->
    agree (clean_blocks d M m st) (view_lenv (VBlocks d M m) l) a.
  Proof.
    intros H E. assert (Hn : match l M, l m with Some x, Some y => Some (u64 (x * y)) | _, _ => None end = None).
    { destruct E as [E|E]; rewrite (agree_len_None _ _ _ _ H E); destruct (l M); reflexivity. }
    apply (agree_clean_blocks _ _ _ _ _ _ _ H); intros; simpl; unfold fupd; rewrite ?Hn; eqdims; auto.
  Qed.

  Lemma clean_dyn_eq d M m p st cs t :
    clean_blocks_dyn d M m p st = Some cs -> get t cs = get t (remove [Idx p] (clean_blocks d M m st)).
  Proof.
    unfold clean_blocks_dyn. destruct (has (Len p) st); [discriminate|]. intros E; inv E.
    unfold clean_blocks. rewrite !get_remove.
    change [Idx d; Len d; Idx M; Idx m; Len M; Len m; Idx p]
      with ([Idx d; Len d; Idx M; Idx m; Len M; Len m] ++ [Idx p]).
    rewrite tag_mem_app. destruct (tag_mem t [Idx p]), (tag_mem t [Idx d; Len d; Idx M; Idx m; Len M; Len m]); reflexivity.
  Qed.

  Lemma agree_get_ext st st' l a : agree st l a -> (forall t, get t st' = get t st) -> agree st' l a.
  Proof. intros H E. apply (agree_mono _ _ _ _ H); intros; rewrite <- ?E; auto. Qed.

  Lemma agree_dyn d M m p st cs l a :
    agree (clean_blocks d M m st) l a -> clean_blocks_dyn d M m p st = Some cs -> agree cs l a.
  Proof.
    intros H E. eapply agree_get_ext; [|intros t; exact (clean_dyn_eq _ _ _ _ _ _ t E)].
    apply agree_remove_idx, H.
  Qed.

  Lemma agree_clean_blocks' d M m st l a :
    agree st l a -> agree (clean_blocks d M m st) (fupd (fupds l [(M, None); (m, None)]) d None) a.
  Proof.
    intros H. apply (agree_clean_blocks _ _ _ _ _ _ _ H); intros; simpl; unfold fupd; eqdims; auto.
  Qed.

  Lemma agree_sta d b M m st cs l a :
    agree st l a -> clean_blocks_sta d b M m st = Some cs -> agree cs (fupd l d None) a.
  Proof.
    unfold clean_blocks_sta. intros [H1 H2]. destruct (_ || _); [discriminate|]. intros E; inv E.
    split; intros q; rewrite get_remove; teq; unfold fupd.
    - specialize (H1 q). eqdims; simpl; auto.
    - intros v. specialize (H2 q v). eqdims; auto; discriminate.
  Qed.

  Lemma is_body_agree b st l a body :
    agree st l a -> is_body b st = Some body -> body = (a b =? 0).
  Proof.
    intros [_ H2]. unfold is_body. destruct (get (Idx b) st) as [v|] eqn:E; [|discriminate].
    specialize (H2 _ _ E). unfold vagree in H2. destruct v as [z|z|]; simpl in *; try discriminate.
    rewrite <- H2. destruct (Z.eqb_spec (u64 z) 0); [intros H; inv H; reflexivity|].
    destruct (u64 z =? 1); [intros H; inv H; reflexivity|discriminate].
  Qed.

  Lemma sub_state_agree v st l a st' :
    P (view_lenv v l) -> view_ok v l -> agree st l a ->
    view_sub_state v hl ln st = Some st' ->
    agree st' (view_lenv v l) (view_asg v il l a).
  Proof.
    intros HP Hok H E. pose proof H as [H1 H2].
    destruct v as [d|d i|d n|d s|d s n|d s e|d s r|d|d M m|d M m p|d b M m ml|M m d|sl gl d ds|ds|d|ps|x y d];
      simpl in E.
    - (* bcast *) inv E. apply agree_remove_both, H.
    - (* fix *) inv E. simpl. apply agree_with_idx; [|apply vagree_vzd].
      split; intros q; rewrite get_remove; teq; unfold fupd; [specialize (H1 q)|intros v]; eqdims; simpl; auto.
    - (* set_length *) inv E. simpl. apply agree_with_len; [exact H|apply vagree_vzd].
    - (* shift *)
      pose proof (agree_remove_both _ _ _ d H) as Hr. simpl.
      assert (Hle : forall x, get (Len d) st = Some x -> exists z, l d = Some z /\ vagree (vadd x s) (u64 (z + vzd s))).
      { intros x Ex. destruct (agree_len_Some _ _ _ _ _ H Ex) as (z & Hz & Hv). exists z.
        split; [exact Hz|]. apply vagree_vadd; [exact Hv|apply vagree_vzd]. }
      assert (Hfl : forall q w, fupd (fupd l d None) d w q = fupd l d w q).
      { intros q w. unfold fupd. destruct (q =? d); reflexivity. }
      destruct (get (Idx d) st) as [i|] eqn:Ei, (get (Len d) st) as [w|] eqn:Ew; inv E;
        try (destruct (Hle _ eq_refl) as (z & Hz & Hv); rewrite Hz; simpl);
        try (rewrite (agree_len_None _ _ _ _ H Ew); simpl).
      + eapply agree_ext.
        * apply (agree_with_idx_len _ _ _ d _ _ (vadd i s) (u64 (a d + vzd s)) Hr Hv).
          apply vagree_vadd; [exact (H2 _ _ Ei)|apply vagree_vzd].
        * intros q. apply Hfl.
        * reflexivity.
      + apply agree_with_idx; [|apply vagree_vadd; [exact (H2 _ _ Ei)|apply vagree_vzd]]. exact Hr.
      + apply agree_upd_absent with (a := a).
        * eapply agree_lens; [apply (agree_with_len _ _ _ d _ _ Hr Hv)|intros q; apply Hfl].
        * intros q. rewrite get_with, get_remove; teq. unfold fupd. eqdims.
      + apply agree_upd_absent with (a := a); [exact Hr|].
        intros q. rewrite get_remove; teq. unfold fupd. eqdims.
    - (* slice *) simpl. destruct (get (Idx d) st) as [i|] eqn:Ei; inv E.
      + apply agree_with_idx; [exact H|]. apply vagree_vadd; [exact (H2 _ _ Ei)|apply vagree_vzd].
      + eapply agree_upd_absent; [exact H|]. intros q Hq. unfold fupd. eqdims.
    - (* span *) simpl. destruct (get (Idx d) st) as [i|] eqn:Ei; inv E.
      + apply agree_with_idx; [exact H|]. apply vagree_vadd; [exact (H2 _ _ Ei)|apply vagree_vzd].
      + eapply agree_upd_absent; [exact H|]. intros q Hq. unfold fupd. eqdims.
    - (* step *) simpl. destruct (get (Idx d) st) as [i|] eqn:Ei; inv E.
      + apply agree_with_idx; [exact H|]. rewrite <- u64_add_l.
        apply vagree_vadd; [apply vagree_vmul; [exact (H2 _ _ Ei)|apply vagree_vzd]|apply vagree_vzd].
      + eapply agree_upd_absent; [exact H|]. intros q Hq. unfold fupd. eqdims.
    - (* reverse *) simpl. destruct (get (Idx d) st) as [i|] eqn:Ei.
      + pose proof (agree_remove_idx _ _ _ d H) as Hr.
        destruct (hl d (remove [Idx d] st)) as [h|]; [|discriminate]. simpl in E.
        destruct h; [|inv E].
        * destruct (ln d (remove [Idx d] st)) as [w|] eqn:Ew; [|discriminate]. simpl in E. inv E.
          apply agree_with_idx; [exact Hr|].
          replace (u64 (il l a d - 1 - a d)) with (u64 (u64 (il l a d - 1) - a d)) by apply u64_sub_l.
          apply vagree_vsub; [|exact (H2 _ _ Ei)]. apply vagree_vsub; [|apply vagree_Sta1].
          eapply Hln; eauto.
        * eapply agree_upd_absent; [exact Hr|]. intros q. rewrite get_remove; teq. unfold fupd. eqdims.
      + inv E. eapply agree_upd_absent; [exact H|]. intros q Hq. unfold fupd. eqdims.
    - (* into_blocks *)
      assert (Hidx : forall iM im minor x, get (Idx M) st = Some iM -> get (Idx m) st = Some im ->
                vagree minor x -> vagree (vadd (vmul iM minor) im) (u64 (a M * x + a m))).
      { intros. rewrite <- u64_add_l. apply vagree_vadd; [apply vagree_vmul|]; eauto. }
      assert (Habs : forall z, agree (clean_blocks d M m st) z a -> forall x, agree (clean_blocks d M m st) z (fupd a d x)).
      { intros z Hz x. eapply agree_upd_absent; [exact Hz|]. intros q. unfold clean_blocks, fupd.
        rewrite get_remove; teq. eqdims. }
      pose proof (agree_clean_blocks' d M m _ _ _ H) as Hc0.
      destruct (get (Len M) st) as [lM|] eqn:EM, (get (Len m) st) as [lm|] eqn:Em; simpl in E.
      + destruct (agree_len_Some _ _ _ _ _ H EM) as (xM & HxM & HvM).
        destruct (agree_len_Some _ _ _ _ _ H Em) as (xm & Hxm & Hvm).
        simpl. rewrite HxM, Hxm. unfold minor_len. rewrite Hxm.
        assert (Hfl : forall q w, fupd (fupd (fupds l [(M, None); (m, None)]) d None) d w q
                                  = fupd (fupds l [(M, None); (m, None)]) d w q).
        { intros q w. apply fupd_fupd. }
        destruct (get (Idx M) st) as [iM|] eqn:EiM, (get (Idx m) st) as [im|] eqn:Eim; inv E.
        * eapply agree_ext; [apply (agree_with_len_idx _ _ _ d _ _ _ _ Hc0 (vagree_vmul _ _ _ _ HvM Hvm)
                               (Hidx _ _ _ _ eq_refl eq_refl Hvm))| |]; [intros q; apply Hfl|reflexivity].
        * apply agree_ext with (l := fupd (fupd (fupds l [(M, None); (m, None)]) d None) d (Some (u64 (xM * xm))))
            (a := fupd a d (u64 (a M * xm + a m))); [|intros; apply Hfl|reflexivity].
          apply agree_with_len; [|apply vagree_vmul; assumption]. apply Habs, Hc0.
        * apply agree_ext with (l := fupd (fupd (fupds l [(M, None); (m, None)]) d None) d (Some (u64 (xM * xm))))
            (a := fupd a d (u64 (a M * xm + a m))); [|intros; apply Hfl|reflexivity].
          apply agree_with_len; [|apply vagree_vmul; assumption]. apply Habs, Hc0.
        * apply agree_ext with (l := fupd (fupd (fupds l [(M, None); (m, None)]) d None) d (Some (u64 (xM * xm))))
            (a := fupd a d (u64 (a M * xm + a m))); [|intros; apply Hfl|reflexivity].
          apply agree_with_len; [|apply vagree_vmul; assumption]. apply Habs, Hc0.
      + pose proof (agree_blocks_cs d M m _ _ _ H (or_intror Em)) as Hc.
        destruct (agree_len_Some _ _ _ _ _ H EM) as (xM & HxM & HvM).
        destruct (hl d (clean_blocks d M m st)) as [h|]; [|discriminate]. simpl in E.
        destruct h; simpl in E; [|inv E; apply Habs, Hc].
        destruct (get (Idx M) st) as [iM|] eqn:EiM, (get (Idx m) st) as [im|] eqn:Eim;
          try (inv E; apply Habs, Hc).
        destruct (ln d (clean_blocks d M m st)) as [w|] eqn:Ew; [|discriminate]. simpl in E. inv E.
        apply agree_with_idx; [exact Hc|]. apply Hidx; auto. unfold minor_len.
        rewrite HxM, (agree_len_None _ _ _ _ H Em). apply vagree_vdiv; [|exact HvM].
        eapply Hln; eauto.
      + pose proof (agree_blocks_cs d M m _ _ _ H (or_introl EM)) as Hc.
        destruct (agree_len_Some _ _ _ _ _ H Em) as (xm & Hxm & Hvm).
        destruct (get (Idx M) st) as [iM|] eqn:EiM, (get (Idx m) st) as [im|] eqn:Eim; inv E;
          try (apply Habs, Hc).
        apply agree_with_idx; [exact Hc|]. apply Hidx; auto. unfold minor_len. rewrite Hxm. exact Hvm.
      + pose proof (agree_blocks_cs d M m _ _ _ H (or_introl EM)) as Hc.
        destruct (hl d (clean_blocks d M m st)) as [h|]; [|discriminate]. simpl in E.
        destruct h; simpl in E; inv E; apply Habs, Hc.
    - (* into_blocks_dynamic *)
      destruct (clean_blocks_dyn d M m p st) as [cs|] eqn:Ecs; [|discriminate]. simpl in E.
      assert (Hidx : forall iM im minor x, get (Idx M) st = Some iM -> get (Idx m) st = Some im ->
                vagree minor x -> vagree (vadd (vmul iM minor) im) (u64 (a M * x + a m))).
      { intros. rewrite <- u64_add_l. apply vagree_vadd; [apply vagree_vmul|]; eauto. }
      assert (Hnone : get (Idx d) cs = None).
      { rewrite (clean_dyn_eq _ _ _ _ _ _ _ Ecs), get_remove. unfold clean_blocks.
        rewrite get_remove; teq. rewrite Z.eqb_refl. destruct (d =? p); reflexivity. }
      assert (Habs : forall z, agree cs z a -> forall x, agree cs z (fupd a d x)).
      { intros z Hz x. eapply agree_upd_absent; [exact Hz|]. intros q Hq. unfold fupd. eqdims. }
      pose proof (agree_dyn _ _ _ _ _ _ _ _ (agree_clean_blocks' d M m _ _ _ H) Ecs) as Hc0.
      assert (Hfl : forall q w, fupd (fupd (fupds l [(M, None); (m, None)]) d None) d w q
                                = fupd (fupds l [(M, None); (m, None)]) d w q).
      { intros q w. apply fupd_fupd. }
      destruct (get (Len M) st) as [lM|] eqn:EM, (get (Len m) st) as [lm|] eqn:Em; simpl in E.
      + destruct (agree_len_Some _ _ _ _ _ H EM) as (xM & HxM & HvM).
        destruct (agree_len_Some _ _ _ _ _ H Em) as (xm & Hxm & Hvm).
        simpl. rewrite HxM, Hxm. unfold minor_len_up. rewrite Hxm.
        destruct (get (Idx M) st) as [iM|] eqn:EiM, (get (Idx m) st) as [im|] eqn:Eim; inv E;
          try (apply agree_ext with (l := fupd (fupd (fupds l [(M, None); (m, None)]) d None) d (Some (u64 (xM * xm))))
                 (a := fupd a d (u64 (a M * xm + a m))); [|intros; apply Hfl|reflexivity];
               apply agree_with_len; [|apply vagree_vmul; assumption]; apply Habs, Hc0).
        eapply agree_ext; [apply (agree_with_len_idx _ _ _ d _ _ _ _ Hc0 (vagree_vmul _ _ _ _ HvM Hvm)
                               (Hidx _ _ _ _ eq_refl eq_refl Hvm))| |]; [intros q; apply Hfl|reflexivity].
      + pose proof (agree_dyn _ _ _ _ _ _ _ _ (agree_blocks_cs d M m _ _ _ H (or_intror Em)) Ecs) as Hc.
        destruct (agree_len_Some _ _ _ _ _ H EM) as (xM & HxM & HvM).
        destruct (get (Idx M) st) as [iM|] eqn:EiM, (get (Idx m) st) as [im|] eqn:Eim;
          try (inv E; apply Habs, Hc).
        destruct (ln d cs) as [w|] eqn:Ew; [|discriminate]. simpl in E. inv E.
        apply agree_with_idx; [exact Hc|]. apply Hidx; auto. unfold minor_len_up.
        rewrite HxM, (agree_len_None _ _ _ _ H Em). apply vagree_vceil; [|exact HvM].
        eapply Hln; eauto.
      + pose proof (agree_dyn _ _ _ _ _ _ _ _ (agree_blocks_cs d M m _ _ _ H (or_introl EM)) Ecs) as Hc.
        destruct (agree_len_Some _ _ _ _ _ H Em) as (xm & Hxm & Hvm).
        destruct (get (Idx M) st) as [iM|] eqn:EiM, (get (Idx m) st) as [im|] eqn:Eim; inv E;
          try (apply Habs, Hc).
        apply agree_with_idx; [exact Hc|]. apply Hidx; auto. unfold minor_len_up. rewrite Hxm. exact Hvm.
      + pose proof (agree_dyn _ _ _ _ _ _ _ _ (agree_blocks_cs d M m _ _ _ H (or_introl EM)) Ecs) as Hc.
        inv E. apply Habs, Hc.
    - (* into_blocks_static *)
      simpl.
      assert (Habs : forall cs, clean_blocks_sta d b M m st = Some cs -> forall x, agree cs (fupd l d None) (fupd a d x)).
      { intros cs Ec x. eapply agree_upd_absent; [eapply agree_sta; eauto|]. intros q. revert Ec.
        unfold clean_blocks_sta, fupd. destruct (_ || _); [discriminate|]. intros Ec; inv Ec.
        rewrite get_remove; teq. eqdims. }
      destruct (get (Idx b) st) as [ib|] eqn:Eb; [|apply Habs, E].
      destruct (get (Idx M) st) as [iM|] eqn:EM; [|apply Habs, E].
      destruct (get (Idx m) st) as [im|] eqn:Em; [|apply Habs, E].
      destruct (is_body b st) as [body|] eqn:Ebo; [|discriminate]. simpl in E.
      pose proof (is_body_agree _ _ _ _ _ H Ebo) as Hb.
      destruct (clean_blocks_sta d b M m st) as [cs|] eqn:Ec; [|discriminate]. simpl in E.
      pose proof (agree_sta _ _ _ _ _ _ _ _ H Ec) as Hc. subst body.
      destruct (a b =? 0).
      + inv E. apply agree_with_idx; [exact Hc|]. rewrite <- u64_add_l.
        apply vagree_vadd; [apply vagree_vmul; [eauto|apply vagree_vzd]|eauto].
      + destruct (ln d cs) as [w|] eqn:Ew; [|discriminate]. simpl in E. inv E.
        apply agree_with_idx; [exact Hc|]. rewrite <- u64_add_l.
        apply vagree_vadd; [apply vagree_vmul; [|apply vagree_vzd]|eauto].
        apply vagree_vdiv; [|apply vagree_vzd]. eapply Hln; eauto.
    - (* merge_blocks *)
      pose proof (agree_clean_merge M m d _ _ _ H) as Hc. simpl in Hok.
      pose proof (agree_len_None' _ _ _ _ H Hok) as ELd. rewrite ELd in E. clear ELd.
      assert (Hcs : forall x y, agree (clean_merge M m d st) (view_lenv (VMerge M m d) l) (fupds a [(M, x); (m, y)])).
      { intros x y. eapply agree_upd_absent; [exact Hc|]. intros q. unfold clean_merge.
        rewrite get_remove. simpl. unfold fupd. eqdims. }
      destruct (hl m (clean_merge M m d st)) as [hm|]; [|discriminate]. simpl in E.
      destruct (hl M (clean_merge M m d st)) as [hM|]; [|discriminate]. simpl in E.
      set (ml := il (view_lenv (VMerge M m d) l) (fupds a [(M, 0); (m, 0)]) m).
      assert (Hsplit : forall i w, get (Idx d) st = Some i -> ln m (clean_merge M m d st) = Some w ->
                agree (with_ [(Idx M, vdiv i w); (Idx m, vmod i w)] (clean_merge M m d st))
                      (view_lenv (VMerge M m d) l) (fupds a [(M, a d / ml); (m, a d mod ml)])).
      { intros i w Ei Ew. assert (Hw : vagree w ml) by (eapply Hln; eauto).
        destruct (Hcs 0 0) as [HL HI]. split; intros q; rewrite get_with.
        - apply HL.
        - intros v. teq. simpl. unfold fupd.
          destruct (Z.eqb_spec q M); [intros E'; inv E'; apply vagree_vdiv; eauto|].
          destruct (Z.eqb_spec q m); [intros E'; inv E'; apply vagree_vmod; eauto|].
          intros E'. specialize (HI q v E'). simpl in HI. unfold fupd in HI.
          destruct (Z.eqb_spec q M); [congruence|]. destruct (Z.eqb_spec q m); [congruence|]. exact HI. }
      simpl view_asg. fold ml.
      destruct hm, hM; simpl in E.
      + destruct (get (Idx d) st) as [i|] eqn:Ei; [|inv E; apply Hcs].
        destruct (ln m (clean_merge M m d st)) as [w|] eqn:Ew; [|discriminate]. inv E. auto.
      + destruct (ln m (clean_merge M m d st)) as [w|] eqn:Ew; [|discriminate]. simpl in E.
        destruct (get (Idx d) st) as [i|] eqn:Ei; inv E; [auto|apply Hcs].
      + destruct (ln M (clean_merge M m d st)) as [w|] eqn:Ew; [|discriminate]. inv E. apply Hcs.
      + inv E. apply Hcs.
    - (* zcurve *)
      pose proof (agree_clean_zcurve d ds _ _ _ sl gl H) as Hc.
      set (xs := map vzd (zc_indices sl gl (Dyn (a d)) (map (fun q => Dyn (il (view_lenv (VZCurve sl gl d ds) l)
                   (fupds a (map (fun q0 => (q0, 0)) ds)) q)) ds))).
      assert (Elen : List.length xs = List.length ds).
      { unfold xs. rewrite map_length, zc_indices_length, map_length. reflexivity. }
      destruct (get (Idx d) st) as [i|] eqn:Ei.
      + destruct (omap _ ds) as [lens|] eqn:El; [|discriminate]. simpl in E. inv E.
        assert (Hxs : Forall2 vagree (zc_indices sl gl i lens) xs).
        { unfold xs. rewrite <- (map_map (fun q => il (view_lenv (VZCurve sl gl d ds) l)
                   (fupds a (map (fun q0 => (q0, 0)) ds)) q) Dyn). apply zc_indices_agree; [eauto|].
          eapply omap_Forall2_map; [exact El|]. intros; eapply Hln; eauto. }
        destruct Hc as [HL HI]. split; intros q; rewrite get_with.
        * rewrite get_combine_len. apply HL.
        * intros v. rewrite get_combine_idx.
          change (match alook q (combine ds (zc_indices sl gl i lens)) with
                  | Some v0 => Some v0 | None => get (Idx q) (clean_zcurve d ds st) end = Some v ->
                  vagree v (fupds a (combine ds xs) q)).
          rewrite fupds_alook. pose proof (alook_combine2 ds _ _ q Hxs) as Hf.
          destruct (alook q (combine ds (zc_indices sl gl i lens))) as [v'|],
                   (alook q (combine ds xs)) as [x|] eqn:Ex; simpl in Hf; try contradiction.
          -- intros E; inv E. exact Hf.
          -- intros E. specialize (HI q v E). rewrite fupds_const in HI.
             destruct (mem q ds) eqn:Em; [|exact HI].
             rewrite get_clean_zcurve_idx, Em, orb_true_r in E. discriminate.
      + inv E. eapply agree_upd_absent; [exact Hc|]. intros q Hq.
        change (fupds a (combine ds xs) q = fupds a (map (fun q0 => (q0, 0)) ds) q).
        rewrite fupds_alook, fupds_const.
        rewrite get_clean_zcurve_idx in Hq. destruct (mem q ds) eqn:Em; [rewrite orb_true_r in Hq; congruence|].
        destruct (alook q (combine ds xs)) as [x|] eqn:Ef; [|reflexivity].
        apply alook_In, in_combine_l, mem_In in Ef. congruence.
    - (* reorder *) inv E. exact H.
    - (* hoist *) inv E. exact H.
    - (* rename *) inv E. destruct Hok. apply agree_rename; assumption.
    - (* join *)
      destruct (hl x (clean_join x y d st)) as [hx|]; [|discriminate]. simpl in E.
      destruct (hl y (clean_join x y d st)) as [hy|]; [|discriminate]. simpl in E.
      destruct (xorb hx hy); [discriminate|].
      assert (Hst : st' = with_ (match get (Idx d) st with Some i => [(Idx x, i); (Idx y, i)] | None => [] end ++
                                 match get (Len d) st with Some w => [(Len x, w); (Len y, w)] | None => [] end)
                                (clean_join x y d st) \/
                    st' = clean_join x y d st /\ get (Idx d) st = None /\ get (Len d) st = None).
      { destruct (get (Idx d) st) as [i|], (get (Len d) st) as [w|]; simpl in *;
          try (destruct (hx || hy); [discriminate|]); inv E; auto. }
      clear E. destruct Hst as [->|(-> & Ei & El)].
      + split; intros q; rewrite get_with, get_app; unfold clean_join; rewrite get_remove; simpl; unfold fupd.
        * pose proof (H1 q) as Hq. pose proof (H1 d) as Hd.
          destruct (get (Idx d) st), (get (Len d) st) as [w|]; simpl; destruct (l d); simpl in Hd; try contradiction;
            eqdims; simpl; auto.
        * intros v. destruct (get (Idx d) st) as [i|] eqn:Ei; simpl.
          -- pose proof (H2 _ _ Ei) as Hi. pose proof (H2 q v) as Hq.
             destruct (get (Len d) st); simpl; eqdims; try discriminate; auto; intros E; inv E; exact Hi.
          -- pose proof (H2 q v) as Hq.
             destruct (get (Len d) st); simpl; eqdims; try discriminate; auto.
      + pose proof (agree_clean_join x y d _ _ _ H El) as Hc. eapply agree_upd_absent; [exact Hc|].
        intros q. unfold clean_join. rewrite get_remove; simpl. unfold fupd. eqdims.
  Qed.
End SubState.

Section Length.
  Variables (hl : hl_t) (ln : ln_t) (il : lenv -> asg -> dim -> Z) (P : lenv -> Prop).
  Hypothesis Hln : ln_agrees ln il P.

  Lemma blocks_sub_none d M m st l a st' :
    P (view_lenv (VBlocks d M m) l) -> agree st l a ->
    view_sub_state (VBlocks d M m) hl ln st = Some st' -> get (Idx M) st = None ->
    agree st' (view_lenv (VBlocks d M m) l) a.
  Proof.
    intros HP H E EM. pose proof (sub_state_agree hl ln il P Hln _ _ _ _ _ HP I H E) as Ha.
    eapply agree_upd_absent; [exact Ha|]. intros q Hq. simpl. unfold fupd.
    destruct (Z.eqb_spec q d); [|reflexivity]. subst. exfalso. apply Hq. clear Hq Ha.
    assert (Hc : get (Idx d) (clean_blocks d M m st) = None).
    { unfold clean_blocks. rewrite get_remove; teq. rewrite Z.eqb_refl. reflexivity. }
    revert E. simpl. rewrite EM.
    destruct (get (Len M) st), (get (Len m) st); try (intros E; inv E; rewrite ?get_with; exact Hc).
    - destruct (hl d _) as [[|]|]; simpl; intros E; inv E; exact Hc.
    - destruct (hl d _) as [[|]|]; simpl; intros E; inv E; exact Hc.
  Qed.

  Lemma blocks_dyn_sub_none d M m p st l a st' :
    P (view_lenv (VBlocksDyn d M m p) l) -> agree st l a ->
    view_sub_state (VBlocksDyn d M m p) hl ln st = Some st' -> get (Idx M) st = None ->
    agree st' (view_lenv (VBlocksDyn d M m p) l) a.
  Proof.
    intros HP H E EM. pose proof (sub_state_agree hl ln il P Hln _ _ _ _ _ HP I H E) as Ha.
    eapply agree_upd_absent; [exact Ha|]. intros q Hq. simpl. unfold fupd.
    destruct (Z.eqb_spec q d); [|reflexivity]. subst. exfalso. apply Hq. clear Hq Ha.
    revert E. simpl. destruct (clean_blocks_dyn d M m p st) as [cs|] eqn:Ec; [|discriminate]. simpl.
    assert (Hc : get (Idx d) cs = None).
    { rewrite (clean_dyn_eq _ _ _ _ _ _ _ Ec). unfold clean_blocks. rewrite !get_remove; teq.
      rewrite Z.eqb_refl. destruct (d =? p); reflexivity. }
    rewrite EM.
    destruct (get (Len M) st), (get (Len m) st); intros E; inv E; rewrite ?get_with; exact Hc.
  Qed.

  Lemma view_length_agree v vs st l a q w :
    P (view_lenv v l) -> view_ok v l -> agree st l a ->
    view_has_length v vs hl ln q st = Some true ->
    view_length v hl ln q st = Some w ->
    vagree w (view_ilen v il l a q).
  Proof.
    intros HP Hok H Hh E. pose proof H as [H1 H2].
    assert (Hsub : forall q' w', (do st' <- view_sub_state v hl ln st; ln q' st') = Some w' ->
              vagree w' (il (view_lenv v l) (view_asg v il l a) q')).
    { intros q' w' E'. destruct (view_sub_state v hl ln st) as [st'|] eqn:Es; [|discriminate].
      simpl in E'. eapply Hln; [exact HP| |exact E']. eapply sub_state_agree; eauto. }
    destruct v as [d|d i|d n|d s|d s n|d s e|d s r|d|d M m|d M m p|d b M m ml|M m d|sl gl d ds|ds|d|ps|x y d];
      unfold view_length in E; unfold view_ilen; try (apply Hsub; exact E).
    - (* bcast *) destruct (q =? d) eqn:Eq; [|auto].
      destruct (agree_len_Some _ _ _ _ _ H E) as (x & -> & Hv). exact Hv.
    - (* shift *) destruct (q =? d) eqn:Eq; [|auto]. apply Z.eqb_eq in Eq. subst q.
      destruct (get (Len d) st) as [w'|] eqn:El.
      + inv E. destruct (agree_len_Some _ _ _ _ _ H El) as (x & -> & Hv). exact Hv.
      + rewrite (agree_len_None _ _ _ _ H El).
        destruct (do st' <- view_sub_state (VShift d s) hl ln st; ln d st') as [w'|] eqn:E'; [|discriminate]. inv E.
        apply vagree_vsub; [apply Hsub, E'|apply vagree_vzd].
    - (* slice *) destruct (q =? d); [inv E; apply vagree_vzd|auto].
    - (* span *) destruct (q =? d); [inv E; apply vagree_vsub; apply vagree_vzd|auto].
    - (* step *) destruct (q =? d) eqn:Eq; [|auto].
      destruct (ln d st) as [w'|] eqn:El; [|discriminate]. inv E.
      apply vagree_vdiv; [|apply vagree_vzd].
      replace (u64 (il (view_lenv (VStep d s r) l) a d + vzd r - vzd s - 1))
        with (u64 (u64 (u64 (il l a d + vzd r) - vzd s) - 1))
        by (rewrite u64_sub_l; replace (u64 (il l a d + vzd r) - vzd s - 1) with (u64 (il l a d + vzd r) - (vzd s + 1)) by lia;
            rewrite u64_sub_l; f_equal; simpl; lia).
      apply vagree_vsub; [|apply vagree_Sta1]. apply vagree_vsub; [|apply vagree_vzd].
      apply vagree_vadd; [|apply vagree_vzd]. eapply Hln; eauto.
    - (* reverse *) eapply Hln; eauto.
    - (* into_blocks *)
      destruct (q =? m) eqn:Eqm.
      + unfold minor_len. destruct (get (Len m) st) as [w'|] eqn:Em.
        * inv E. destruct (agree_len_Some _ _ _ _ _ H Em) as (x & -> & Hv). exact Hv.
        * rewrite (agree_len_None _ _ _ _ H Em). destruct (get (Len M) st) as [lM|] eqn:EM; [|discriminate].
          destruct (agree_len_Some _ _ _ _ _ H EM) as (x & -> & Hv). simpl in E.
          destruct (ln d (clean_blocks d M m st)) as [w'|] eqn:Ew; [|discriminate]. inv E.
          apply vagree_vdiv; [|exact Hv]. eapply Hln; [exact HP| |exact Ew].
          apply agree_blocks_cs; auto.
      + destruct (q =? M) eqn:EqM; [|auto]. apply Z.eqb_eq in EqM. subst q.
        destruct (get (Len M) st) as [w'|] eqn:EM.
        * inv E. destruct (agree_len_Some _ _ _ _ _ H EM) as (x & -> & Hv). exact Hv.
        * rewrite (agree_len_None _ _ _ _ H EM). destruct (get (Len m) st) as [lm|] eqn:Em; [|discriminate].
          destruct (agree_len_Some _ _ _ _ _ H Em) as (x & -> & Hv). simpl in E.
          assert (HI : get (Idx M) st = None).
          { simpl in Hh. rewrite Eqm, Z.eqb_refl in Hh. unfold has in Hh.
            destruct (get (Idx M) st); [discriminate|reflexivity]. }
          change (match view_sub_state (VBlocks d M m) hl ln st with Some st' => do l0 <- ln d st'; Some (vdiv l0 lm) | None => None end = Some w) in E.
          destruct (view_sub_state (VBlocks d M m) hl ln st) as [st'|] eqn:Es; [|discriminate].
          destruct (ln d st') as [w'|] eqn:Ew; [|discriminate]. inv E.
          apply vagree_vdiv; [|exact Hv]. eapply Hln; [exact HP| |exact Ew].
          eapply blocks_sub_none; eauto.
    - (* into_blocks_dynamic *)
      assert (Hcl : forall cs w', clean_blocks_dyn d M m p st = Some cs -> ln d cs = Some w' ->
                get (Len M) st = None \/ get (Len m) st = None ->
                vagree w' (il (view_lenv (VBlocksDyn d M m p) l) a d)).
      { intros cs w' Ec Ew Hn. eapply Hln; [exact HP| |exact Ew]. eapply agree_dyn; [|exact Ec].
        apply agree_blocks_cs; assumption. }
      assert (Hidx : forall iM im minor x, get (Idx M) st = Some iM -> get (Idx m) st = Some im ->
                vagree minor x -> vagree (vadd (vmul iM minor) im) (u64 (a M * x + a m))).
      { intros. rewrite <- u64_add_l. apply vagree_vadd; [apply vagree_vmul|]; eauto. }
      destruct (q =? p) eqn:Eqp; [|destruct (q =? m) eqn:Eqm; [|destruct (q =? M) eqn:EqM; [|auto]]].
      + destruct (get (Idx M) st) as [iM|] eqn:EiM; [|discriminate].
        destruct (get (Idx m) st) as [im|] eqn:Eim; [|discriminate]. simpl in E. unfold minor_len_up.
        destruct (get (Len m) st) as [lm|] eqn:Em, (get (Len M) st) as [lM|] eqn:EM; try discriminate.
        * destruct (agree_len_Some _ _ _ _ _ H Em) as (xm & -> & Hvm).
          destruct (agree_len_Some _ _ _ _ _ H EM) as (xM & -> & HvM). inv E.
          apply vagree_vlt; [apply Hidx; auto|apply vagree_vmul; assumption].
        * destruct (agree_len_Some _ _ _ _ _ H Em) as (xm & -> & Hvm).
          rewrite (agree_len_None _ _ _ _ H EM).
          destruct (clean_blocks_dyn d M m p st) as [cs|] eqn:Ec; [|discriminate]. simpl in E.
          destruct (ln d cs) as [w'|] eqn:Ew; [|discriminate]. inv E.
          apply vagree_vlt; [apply Hidx; auto|eauto].
        * destruct (agree_len_Some _ _ _ _ _ H EM) as (xM & -> & HvM).
          rewrite (agree_len_None _ _ _ _ H Em).
          destruct (clean_blocks_dyn d M m p st) as [cs|] eqn:Ec; [|discriminate]. simpl in E.
          destruct (ln d cs) as [w'|] eqn:Ew; [|discriminate]. inv E.
          apply vagree_vlt; [|eauto]. apply Hidx; auto. apply vagree_vceil; eauto.
      + unfold minor_len_up. destruct (get (Len m) st) as [w'|] eqn:Em.
        * inv E. destruct (agree_len_Some _ _ _ _ _ H Em) as (x & -> & Hv). exact Hv.
        * rewrite (agree_len_None _ _ _ _ H Em). destruct (get (Len M) st) as [lM|] eqn:EM; [|discriminate].
          destruct (agree_len_Some _ _ _ _ _ H EM) as (x & -> & Hv). simpl in E.
          destruct (clean_blocks_dyn d M m p st) as [cs|] eqn:Ec; [|discriminate]. simpl in E.
          destruct (ln d cs) as [w'|] eqn:Ew; [|discriminate]. inv E.
          apply vagree_vceil; eauto.
      + apply Z.eqb_eq in EqM. subst q. destruct (get (Len M) st) as [w'|] eqn:EM.
        * inv E. destruct (agree_len_Some _ _ _ _ _ H EM) as (x & -> & Hv). exact Hv.
        * rewrite (agree_len_None _ _ _ _ H EM). destruct (get (Len m) st) as [lm|] eqn:Em; [|discriminate].
          destruct (agree_len_Some _ _ _ _ _ H Em) as (x & -> & Hv). cbn [obind] in E.
          assert (HI : get (Idx M) st = None).
          { simpl in Hh. rewrite Eqp, Eqm, Z.eqb_refl in Hh. unfold has in Hh.
            destruct (get (Idx M) st); [discriminate|reflexivity]. }
          destruct (view_sub_state (VBlocksDyn d M m p) hl ln st) as [st'|] eqn:Es; [|discriminate].
          cbn [obind] in E. destruct (ln d st') as [w'|] eqn:Ew; [|discriminate]. inv E.
          apply vagree_vceil; [|exact Hv]. eapply Hln; [exact HP| |exact Ew].
          eapply blocks_dyn_sub_none; eauto.
    - (* into_blocks_static *)
      assert (Hfull : forall st' w', view_sub_state (VBlocksSta d b M m ml) hl ln st = Some st' ->
                ln d st' = Some w' -> get (Idx M) st = None \/ get (Idx m) st = None ->
                vagree w' (il (view_lenv (VBlocksSta d b M m ml) l) a d)).
      { intros st' w' Es Ew Hn. eapply Hln; [exact HP| |exact Ew].
        assert (Ec : clean_blocks_sta d b M m st = Some st').
        { simpl in Es. destruct Hn as [En|En]; rewrite En in Es;
            destruct (get (Idx b) st); try exact Es; destruct (get (Idx M) st); exact Es. }
        simpl. eapply agree_sta; eauto. }
      simpl in Hh. destruct (has (Idx q) st) eqn:Ei; [discriminate|]. apply has_false in Ei.
      destruct (q =? b) eqn:Eqb; [inv E; reflexivity|].
      destruct (q =? m) eqn:Eqm; [|destruct (q =? M) eqn:EqM; [|auto]].
      + apply Z.eqb_eq in Eqm. subst q.
        destruct (is_body b st) as [body|] eqn:Eb; [|discriminate].
        rewrite <- (is_body_agree _ _ _ _ _ H Eb). cbn [obind] in E. destruct body; [inv E; apply vagree_vzd|].
        destruct (view_sub_state (VBlocksSta d b M m ml) hl ln st) as [st'|] eqn:Es; [|discriminate].
        cbn [obind] in E. destruct (ln d st') as [w'|] eqn:Ew; [|discriminate]. inv E.
        apply vagree_vmod; [eauto|apply vagree_vzd].
      + apply Z.eqb_eq in EqM. subst q.
        destruct (is_body b st) as [body|] eqn:Eb; [|discriminate].
        rewrite <- (is_body_agree _ _ _ _ _ H Eb). cbn [obind] in E. destruct body; [|inv E; reflexivity].
        destruct (view_sub_state (VBlocksSta d b M m ml) hl ln st) as [st'|] eqn:Es; [|discriminate].
        cbn [obind] in E. destruct (ln d st') as [w'|] eqn:Ew; [|discriminate]. inv E.
        apply vagree_vdiv; [eauto|apply vagree_vzd].
    - (* merge_blocks *)
      unfold view_has_length in Hh. destruct (has (Idx q) st) eqn:Ei; [discriminate|]. apply has_false in Ei.
      destruct (q =? d) eqn:Eq; [|auto]. apply Z.eqb_eq in Eq. subst q. simpl in Hok.
      rewrite (agree_len_None' _ _ _ _ H Hok) in E.
      destruct (view_sub_state (VMerge M m d) hl ln st) as [st'|] eqn:Es; [|discriminate]. cbn [obind] in E.
      assert (Ec : st' = clean_merge M m d st).
      { simpl in Es. rewrite Ei, (agree_len_None' _ _ _ _ H Hok) in Es.
        destruct (hl m _) as [hm|]; [|discriminate]. simpl in Es.
        destruct (hl M _) as [hM|]; [|discriminate]. simpl in Es.
        destruct hm, hM; simpl in Es; try congruence.
        - destruct (ln m _); [|discriminate]. simpl in Es. congruence.
        - destruct (ln M _); [|discriminate]. simpl in Es. congruence. }
      subst st'. pose proof (agree_clean_merge M m d _ _ _ H) as Hc.
      destruct (ln M _) as [wM|] eqn:EwM; [|discriminate]. cbn [obind] in E.
      destruct (ln m _) as [wm|] eqn:Ewm; [|discriminate]. inv E.
      apply vagree_vmul; eapply Hln; eauto.
    - (* zcurve *)
      unfold view_has_length in Hh. destruct (has (Idx q) st) eqn:Ei; [discriminate|]. apply has_false in Ei.
      destruct (q =? d) eqn:Eq; [|auto]. apply Z.eqb_eq in Eq. subst q.
      simpl in E. rewrite Ei in E. cbn [obind] in E.
      pose proof (agree_clean_zcurve d ds _ _ _ sl gl H) as Hc.
      destruct (omap _ ds) as [ls|] eqn:El; [|discriminate]. cbn [obind] in E.
      set (g := il (view_lenv (VZCurve sl gl d ds) l) (fupds a (map (fun x => (x, 0)) ds))).
      assert (Hls : Forall2 vagree ls (map g ds)).
      { eapply omap_Forall2_map; [exact El|]. intros; eapply Hln; eauto. }
      destruct ls as [|v0 r]; [discriminate|]. inv E.
      destruct (map g ds) as [|x0 xs]; [inv Hls|]. inv Hls. cbn [fold_left]. rewrite Z.mul_1_l.
      assert (Hprod : forall r xs v0 x0, vagree v0 (u64 x0) -> Forall2 vagree r xs ->
                vagree (fold_left (dyn2 Z.mul) r v0) (u64 (fold_left Z.mul xs x0))).
      { clear. induction r as [|v r IH]; intros xs v0 x0 Hv Hr; inv Hr; simpl; [exact Hv|].
        apply IH; [|assumption]. unfold vagree, dyn2 in *.
        destruct (vz v0); [|destruct (vz v); exact I]. destruct (vz v); [|exact I]. subst. simpl.
        rewrite u64_u64, u64_mul_l. reflexivity. }
      apply Hprod; [|assumption]. unfold vagree in *. destruct (vz v0) eqn:Ev; [|exact I]. subst.
      symmetry. apply u64_small. eapply vz_range, Ev.
  Qed.
End Length.

(** ** Lengths *)

Lemma view_sig_rename_ok ps s sg : view_sig (VRename ps) s = Some sg -> NoDup (map fst ps) /\ NoDup (map snd ps).
Proof.
  simpl. destruct (nodupb (map fst ps)) eqn:E1; [|discriminate].
  destruct (nodupb (map snd ps)) eqn:E2; [|discriminate]. intros _.
  split; apply nodupb_NoDup; assumption.
Qed.

(** [mergefree s l]: no merged dimension gets its length from the state. *)
Lemma signature_view v t : signature (View v t) <> None -> exists sg, signature t = Some sg /\ view_sig v sg <> None.
Proof. simpl. destruct (signature t) as [sg|]; [|congruence]. eauto. Qed.

Lemma signature_vector d t : signature (Vector d t) <> None -> signature t <> None.
Proof. simpl. destruct (signature t); congruence. Qed.

Lemma signature_tuple d ts : signature (Tuple d ts) <> None -> Forall (fun t => signature t <> None) ts.
Proof.
  simpl. destruct (omap signature ts) as [ss|] eqn:E; [|congruence]. intros _.
  apply omap_Some_Forall2 in E. induction E; constructor; [congruence|assumption].
Qed.

Lemma signature_union ts : signature (Union ts) <> None -> Forall (fun t => signature t <> None) ts.
Proof.
  simpl. destruct (omap signature ts) as [ss|] eqn:E; [|congruence]. intros _.
  apply omap_Some_Forall2 in E. induction E; constructor; [congruence|assumption].
Qed.

Lemma lenok_all ts l : fold_right and True (map (fun t => lenok t l) ts) <-> Forall (fun t => lenok t l) ts.
Proof.
  induction ts as [|t ts IH]; simpl; [split; auto|]. rewrite IH. split.
  - intros [? ?]; constructor; assumption.
  - intros H; inv H; auto.
Qed.

Lemma view_ok_of v t l : signature (View v t) <> None -> lenok (View v t) l -> view_ok v l.
Proof.
  intros Hs [Hl _]. destruct (signature_view _ _ Hs) as (sg & Es & Hv).
  destruct v; simpl; auto. destruct (view_sig (VRename ps) sg) as [sg'|] eqn:E; [|congruence].
  eapply view_sig_rename_ok, E.
Qed.

Lemma nthz_map_inv {A B} (f : A -> B) l k y : nthz (map f l) k = Some y -> exists x, nthz l k = Some x /\ y = f x.
Proof. rewrite nthz_map. destruct (nthz l k); simpl; [|discriminate]. intros E; inv E; eauto. Qed.

Lemma Forall_nthz {A} (P : A -> Prop) l k x : Forall P l -> nthz l k = Some x -> P x.
Proof. intros H E. rewrite Forall_forall in H. eapply H, nthz_In, E. Qed.

Lemma first_match_map {A B} (f : A -> B) q (l : list (option sig * A)) :
  first_match q (map (fun p => (fst p, f (snd p))) l) = option_map (option_map f) (first_match q l).
Proof.
  induction l as [|[[s|] a] l IH]; simpl; [reflexivity| |reflexivity].
  destruct (any_accept q s); [reflexivity|apply IH].
Qed.

Lemma first_match_In {A} q (l : list (option sig * A)) x :
  first_match q l = Some (Some x) -> exists s, In (Some s, x) l /\ any_accept q s = true.
Proof.
  induction l as [|[[s|] a] l IH]; simpl; try discriminate.
  destruct (any_accept q s) eqn:E; [intros E'; inv E'; eauto|].
  intros H. destruct (IH H) as (s' & Hin & Ha). eauto.
Qed.

(** Characterising equations of [has_length] and [length_]. *)
Lemma length_View v t q st :
  length_ (View v t) q st =
  guard (has_length (View v t) q st) (view_length v (has_length t) (length_ t) q st).
Proof. reflexivity. Qed.
Lemma has_length_View v t q st :
  has_length (View v t) q st =
  view_has_length v (signature (View v t)) (has_length t) (length_ t) q st.
Proof. reflexivity. Qed.

Theorem length_agree s : signature s <> None -> ln_agrees (length_ s) (ilen s) (lenok s).
Proof.
  induction s as [c|d ts IH|d t IH|v t IH|ts IH] using struct_ind'; intros Hs st l a q w Hl H E.
  - discriminate.
  - apply signature_tuple in Hs. simpl in Hl. apply lenok_all in Hl.
    unfold length_ in E. simpl in E |- *. unfold guard in E.
    destruct (Z.eqb_spec q d) as [->|Hq].
    + destruct (negb (has (Idx d) st)); [|discriminate]. inv E. reflexivity.
    + destruct (has (Idx d) st) eqn:Eh; [|discriminate].
      destruct (get (Idx d) st) as [vi|] eqn:Ei; [|discriminate]. destruct (vstatic vi) as [k|] eqn:Ek; [|discriminate].
      assert (a d = k) as ->.
      { pose proof (ag_idx _ _ _ H _ _ Ei) as Hv. unfold vagree in Hv.
        destruct vi; simpl in *; try discriminate. congruence. }
      rewrite nthz_map in E. rewrite nthz_map. destruct (nthz ts k) as [t|] eqn:Et; [|discriminate]. simpl in *.
      destruct (fst (lenops t) q (remove [Idx d] st)) as [[|]|]; try discriminate.
      eapply Forall_nthz in IH; [|exact Et]. eapply Forall_nthz in Hs; [|exact Et].
      eapply Forall_nthz in Hl; [|exact Et].
      eapply (IH Hs); [exact Hl| |exact E]. apply agree_remove_idx, H.
  - apply signature_vector in Hs. simpl in Hl.
    unfold length_ in E. simpl in E |- *. unfold guard in E.
    destruct (Z.eqb_spec q d) as [->|Hq].
    + destruct (has (Len d) st && negb (has (Idx d) st)); [|discriminate].
      destruct (agree_len_Some _ _ _ _ _ H E) as (x & -> & Hv). exact Hv.
    + destruct (fst (lenops t) q (remove [Idx d; Len d] st)) as [[|]|]; try discriminate.
      eapply (IH Hs); [exact Hl| |exact E]. apply agree_remove_both, H.
  - pose proof (view_ok_of _ _ _ Hs Hl) as Hok. destruct (signature_view _ _ Hs) as (sg & Es & _).
    assert (Hst : signature t <> None) by congruence. destruct Hl as [_ Hl].
    rewrite length_View in E. unfold guard in E.
    destruct (has_length (View v t) q st) as [[|]|] eqn:Eh; try discriminate.
    rewrite has_length_View in Eh. simpl ilen.
    eapply view_length_agree; eauto.
  - apply signature_union in Hs. simpl in Hl. apply lenok_all in Hl.
    unfold length_ in E. simpl in E |- *. unfold guard in E.
    destruct (first_match q (map (fun t => (signature t, lenops t)) ts)) as [[o|]|] eqn:Ef; try discriminate.
    assert (Hgen : exists t, In t ts /\ o = lenops t /\
              first_match q (map (fun t => (signature t, ilen t l a q)) ts) = Some (Some (ilen t l a q))).
    { clear -Ef. induction ts as [|t ts IH]; simpl in *; [discriminate|].
      destruct (signature t) as [s|]; [|discriminate]. destruct (any_accept q s).
      - inv Ef. exists t. auto.
      - destruct (IH Ef) as (t' & ? & ? & ?). exists t'. auto. }
    destruct Hgen as (t & Hin & -> & ->).
    rewrite Forall_forall in IH, Hs, Hl.
    destruct (fst (lenops t) q st) as [[|]|]; try discriminate.
    eapply (IH t Hin (Hs t Hin)); [apply Hl, Hin|exact H|exact E].
Qed.

Theorem sub_state_refines v t st l a st' :
  signature (View v t) <> None -> lenok (View v t) l -> agree st l a ->
  sub_state v t st = Some st' -> agree st' (view_lenv v l) (view_asg v (ilen t) l a).
Proof.
  intros Hs Hl H E. pose proof (view_ok_of _ _ _ Hs Hl) as Hok.
  destruct (signature_view _ _ Hs) as (sg & Es & _). destruct Hl as [_ Hl].
  eapply sub_state_agree; try eassumption. apply length_agree. congruence.
Qed.
