(** * The text of structures: proofs *)

From Coq Require Import String.
From Verif Require Export MangleTree Foreign.
From Verif Require Import Bytes Parts.
Import ListNotations.
Open Scope Z_scope.
Open Scope list_scope.

(** ** Digits *)

Lemma read_plain x : forall n v, read_from n x = Some v -> forallb plainb x = true.
Proof.
  induction x as [|c x IH]; intros n v H; [reflexivity|]. cbn [read_from] in H. destruct ((48 <=? c) && (c <=? 57)) eqn:E; [|discriminate].
  apply andb_true_iff in E as [E1 E2]. apply Z.leb_le in E1, E2. cbn [forallb]. rewrite (IH _ _ H), andb_true_r. unfold plainb. cbn [existsb].
  repeat rewrite (proj2 (Z.eqb_neq c _)) by lia. reflexivity.
Qed.
Lemma decimal_plain x v : read_decimal x = Some v -> plain_text x.
Proof. destruct x as [|c x]; [discriminate|]. intros H. split; [discriminate|]. exact (read_plain (c :: x) 0 v H). Qed.

Lemma int_ity : is_ity t_int. Proof. split; cbn; lia. Qed.
Lemma size_ity : is_ity t_size. Proof. split; cbn; lia. Qed.

Lemma value_some t v x : is_ity t -> mangle_value t v = Some x -> holds t v /\ 0 <= v /\ read_decimal x = Some v.
Proof.
  intros Ht H. destruct (Z_lt_le_dec v 0) as [Hn|Hn]; [rewrite (value_negative t v Hn) in H; discriminate|].
  assert (Hh : holds t v). { unfold mangle_value in H. destruct (_ && _) eqn:E; [|discriminate]. apply andb_true_iff in E as [A B]. apply Z.leb_le in A, B. split; assumption. }
  destruct (value_text t v Ht Hh Hn) as (y & Ey & Ry & _). rewrite Ey in H. injection H as <-. auto.
Qed.
Lemma value_ok t v : is_ity t -> holds t v -> 0 <= v -> mangle_value t v <> None.
Proof. intros Ht Hh Hn. destruct (value_text t v Ht Hh Hn) as (y & -> & _). discriminate. Qed.

Lemma plain_app x y : plain_text x -> forallb plainb y = true -> plain_text (x ++ y).
Proof. intros [H1 H2] H. split; [destruct x; [contradiction|discriminate]|]. rewrite forallb_app, H2, H. reflexivity. Qed.

(** ** Trees *)

Definition u64t : text := txt "uint64_t".
Lemma u64t_eq : scalar_name (TInt t_size) = Some u64t. Proof. reflexivity. Qed.
Lemma u64t_plain : plain_text u64t. Proof. split; [discriminate|reflexivity]. Qed.

Definition val_tree (v : val) : option tree :=
  match v with
  | Sta z => do x <- mangle_value t_int (u64 z); Some (Node (txt "std::integral_constant") [Atom u64t; Atom x])
  | _ => Some (Atom u64t)
  end.
Definition value_tree (n : Z) : option tree := do x <- mangle_value t_size n; Some (Atom (txt "(uint64_t)" ++ x)).
Definition dim_tree (d : dim) : option tree := if (-128 <=? d) && (d <=? 127) then Some (Quote d) else None.
Definition desc (name : text) (ps : list (option tree)) : option tree :=
  do ts <- omap (fun p => p) ps; match ts with [] => None | _ => Some (Node name ts) end.

Definition view_trees (v : view) (t : option tree) : list (option tree) :=
  match v with
  | VBcast d | VReverse d | VHoist d => [dim_tree d; t]
  | VFix d i => [dim_tree d; t; val_tree i]
  | VSetLength d n => [dim_tree d; t; val_tree n]
  | VShift d s => [dim_tree d; t; val_tree s]
  | VSlice d s n | VSpan d s n | VStep d s n => [dim_tree d; t; val_tree s; val_tree n]
  | VBlocks d M m => [dim_tree d; dim_tree M; dim_tree m; t]
  | VBlocksDyn d M m p => [dim_tree d; dim_tree M; dim_tree m; dim_tree p; t]
  | VBlocksSta d b M m n => [dim_tree d; dim_tree b; dim_tree M; dim_tree m; t; val_tree n]
  | VMerge M m d => [dim_tree M; dim_tree m; dim_tree d; t]
  | VZCurve sl gl d ds => [value_tree (Z.of_nat sl); value_tree (Z.of_nat gl); dim_tree d; t] ++ map dim_tree ds
  | VReorder ds => t :: map dim_tree ds
  | VRename ps => t :: map dim_tree (flat_map (fun p => [fst p; snd p]) ps)
  | VJoin a b d => [t; dim_tree a; dim_tree b; dim_tree d]
  end.

Fixpoint struct_tree (tn : cty -> cppty) (s : struct) : option tree :=
  match s with
  | Scalar c => desc (txt "scalar") [option_map Atom (scalar_name (tn c))]
  | Tuple d ts => desc (txt "tuple_t") (dim_tree d :: map (struct_tree tn) ts)
  | Vector d t => desc (txt "vector_t") [dim_tree d; struct_tree tn t]
  | View v t => desc (view_name v) (view_trees v (struct_tree tn t))
  | Union _ => None
  end.

Definition owf (o : option tree) : Prop := forall t, o = Some t -> twf t.

Lemma print_ne t : twf t -> print t <> [].
Proof. destruct t as [x|d|n ts]; cbn [twf print]; [intros [H _]; exact H|discriminate|]. intros ([H _] & _) E. destruct n; [contradiction|discriminate]. Qed.

Lemma fold_concat ts : forall a, a <> [] -> Forall twf ts -> fold_left (concat2 [44]) (map print ts) a = a ++ flat_map (fun w => 44 :: print w) ts.
Proof.
  induction ts as [|t ts IH]; intros a Ha H; cbn [map fold_left flat_map]; [rewrite app_nil_r; reflexivity|]. inversion H as [|? ? A B]; subst.
  assert (E : concat2 [44] a (print t) = a ++ 44 :: print t) by (pose proof (print_ne t A); destruct a, (print t); (contradiction || reflexivity)).
  rewrite IH; [|rewrite E; destruct a; discriminate|exact B]. rewrite E, <- app_assoc. reflexivity.
Qed.

Lemma omap_print ps : omap (fun p => p) (map (option_map print) ps) = option_map (map print) (omap (fun p => p) ps).
Proof. induction ps as [|p ps IH]; [reflexivity|]. cbn [map omap]. fold (omap (fun p : option text => p)). fold (omap (fun p : option tree => p)).
  rewrite IH. destruct p as [t|]; [|reflexivity]. destruct (omap (fun p => p) ps); reflexivity. Qed.

Lemma omap_id {A} (ps : list (option A)) ts : omap (fun p => p) ps = Some ts -> ps = map Some ts.
Proof.
  revert ts. induction ps as [|p ps IH]; intros ts H; cbn [omap] in H; [injection H as <-; reflexivity|]. fold (omap (fun p : option A => p)) in H.
  destruct p as [t|]; [|discriminate]. destruct (omap (fun p => p) ps) as [us|]; [|discriminate]. injection H as <-. cbn. rewrite <- (IH us eq_refl). reflexivity.
Qed.
Lemma omap_id_defined {A} (ps : list (option A)) : omap (fun p => p) ps <> None <-> Forall (fun p => p <> None) ps.
Proof.
  induction ps as [|p ps IH]; cbn [omap]; [split; [constructor|discriminate]|]. fold (omap (fun p : option A => p)).
  split; intros H.
  - destruct p as [t|]; [|contradiction]. constructor; [discriminate|]. apply IH. destruct (omap (fun p => p) ps); [discriminate|contradiction].
  - inversion H as [|? ? A1 A2]; subst. apply IH in A2. destruct p; [|contradiction]. destruct (omap (fun p => p) ps); [discriminate|contradiction].
Qed.

Lemma desc_print name ps : Forall owf ps -> mangle_desc name (map (option_map print) ps) = option_map print (desc name ps).
Proof.
  intros H. unfold mangle_desc, desc. rewrite omap_print. destruct (omap (fun p => p) ps) as [ts|] eqn:E; [|reflexivity]. cbn [obind option_map].
  apply omap_id in E. subst ps. destruct ts as [|t ts]; [reflexivity|]. cbn [map concat_sep obind option_map print]. change (txt ",") with [44].
  assert (Hw : Forall twf (t :: ts)). { revert H. generalize (t :: ts). induction l as [|u l IH]; intros H; constructor; inversion H as [|? ? A B]; subst; [apply A; reflexivity|apply IH, B]. }
  inversion Hw as [|? ? A B]; subst. rewrite fold_concat by (assumption || apply print_ne, A). reflexivity.
Qed.
Lemma desc_wf name ps : plain_text name -> Forall owf ps -> owf (desc name ps).
Proof.
  intros Hn H t E. unfold desc in E. destruct (omap (fun p => p) ps) as [ts|] eqn:Eo; [|discriminate]. cbn [obind] in E. apply omap_id in Eo. subst ps.
  destruct ts as [|u ts]; [discriminate|]. injection E as <-. cbn [twf]. split; [exact Hn|]. split; [discriminate|]. apply twf_all.
  revert H. generalize (u :: ts). induction l as [|w l IH]; intros H; constructor; inversion H as [|? ? A B]; subst; [apply A; reflexivity|apply IH, B].
Qed.
Lemma desc_inj n n' ps ps' x : desc n ps = Some x -> desc n' ps' = Some x -> n = n' /\ ps = ps' /\ Forall (fun p => p <> None) ps.
Proof.
  unfold desc. intros H H'. destruct (omap (fun p => p) ps) as [ts|] eqn:E; [|discriminate]. destruct (omap (fun p => p) ps') as [ts'|] eqn:E'; [|discriminate].
  cbn [obind] in *. pose proof (proj1 (omap_id_defined ps) ltac:(rewrite E; discriminate)) as Hd. apply omap_id in E. apply omap_id in E'.
  destruct ts; [discriminate|]. destruct ts'; [discriminate|]. injection H as <-. injection H' as -> -> ->. subst. auto.
Qed.
Lemma desc_defined n ps : desc n ps <> None <-> ps <> [] /\ Forall (fun p => p <> None) ps.
Proof.
  rewrite <- omap_id_defined. unfold desc. destruct (omap (fun p => p) ps) as [ts|] eqn:E; cbn [obind].
  - apply omap_id in E. subst ps. destruct ts; split; try discriminate; try contradiction; [intros [H _]; contradiction|split; discriminate].
  - split; [contradiction|intros [_ H]; contradiction].
Qed.

Lemma dim_print d : dim_param d = option_map print (dim_tree d).
Proof. unfold dim_param, dim_tree. destruct (_ && _); reflexivity. Qed.
Lemma dim_wf d : owf (dim_tree d). Proof. unfold dim_tree. intros t. destruct (_ && _); intros H; [injection H as <-; exact I|discriminate]. Qed.
Lemma dim_inj d d' : dim_tree d <> None -> dim_tree d = dim_tree d' -> d = d'.
Proof. unfold dim_tree. destruct (_ && _), ((_ <=? d') && _); intros H E; try contradiction; try discriminate. injection E as E. exact E. Qed.
Lemma dim_defined d : dim_tree d <> None <-> is_char d.
Proof.
  unfold dim_tree, is_char. destruct ((-128 <=? d) && (d <=? 127)) eqn:E.
  - apply andb_true_iff in E as [A B]. apply Z.leb_le in A, B. split; [lia|discriminate].
  - apply andb_false_iff in E. split; [contradiction|]. rewrite !Z.leb_gt in E. lia.
Qed.

Lemma val_print v : val_name v = option_map print (val_tree v).
Proof.
  unfold val_name, val_tree. destruct v as [z|z|]; rewrite u64t_eq; [|reflexivity..]. cbn [obind]. destruct (mangle_value t_int (u64 z)) as [x|]; [|reflexivity].
  cbn [obind option_map print flat_map]. rewrite app_nil_r. reflexivity.
Qed.
Lemma val_wf v : owf (val_tree v).
Proof.
  unfold val_tree. intros t. destruct v as [z|z|]; try (intros H; injection H as <-; apply u64t_plain).
  destruct (mangle_value t_int (u64 z)) as [x|] eqn:E; [|discriminate]. cbn [obind]. intros H. injection H as <-. destruct (value_some _ _ _ int_ity E) as (_ & _ & R).
  pose proof (decimal_plain _ _ R). pose proof u64t_plain. cbn [twf]. repeat split; try discriminate; try apply H; try apply H0.
Qed.
Lemma val_inj v v' : val_tree v <> None -> val_tree v = val_tree v' -> val_code v = val_code v'.
Proof.
  unfold val_tree. intros H E. destruct v as [z|z|], v' as [z'|z'|]; try reflexivity; cbn [val_code].
  - destruct (mangle_value t_int (u64 z)) as [x|] eqn:E1; [|contradiction]. destruct (mangle_value t_int (u64 z')) as [x'|] eqn:E2; [|discriminate].
    cbn [obind] in E. injection E as <-. rewrite (value_inj _ _ _ _ _ int_ity int_ity E1 E2). reflexivity.
  - destruct (mangle_value t_int (u64 z)); discriminate.
  - destruct (mangle_value t_int (u64 z)); discriminate.
  - destruct (mangle_value t_int (u64 z')); discriminate.
  - destruct (mangle_value t_int (u64 z')); discriminate.
Qed.
Lemma val_defined v : val_tree v <> None <-> small_constant v.
Proof.
  unfold val_tree, small_constant. destruct v as [z|z|]; [|split; [exact (fun _ => I)|discriminate]..].
  destruct (mangle_value t_int (u64 z)) as [x|] eqn:E; cbn [obind].
  - split; [|discriminate]. intros _. destruct (value_some _ _ _ int_ity E) as ([_ H] & _). cbn in H. lia.
  - split; [contradiction|]. intros H _. apply (value_ok t_int (u64 z) int_ity); [|apply u64_range|exact E]. pose proof (u64_range z). split; cbn; lia.
Qed.

Lemma value_print n : value_param n = option_map print (value_tree n).
Proof. unfold value_param, value_tree. rewrite u64t_eq. cbn [obind]. destruct (mangle_value t_size n); reflexivity. Qed.
Lemma value_wf n : owf (value_tree n).
Proof.
  unfold value_tree. intros t. destruct (mangle_value t_size n) as [x|] eqn:E; [|discriminate]. cbn [obind]. intros H. injection H as <-.
  destruct (value_some _ _ _ size_ity E) as (_ & _ & R). apply (plain_app (txt "(uint64_t)") x); [split; [discriminate|reflexivity]|exact (proj2 (decimal_plain _ _ R))].
Qed.
Lemma value_tree_inj n n' : value_tree n <> None -> value_tree n = value_tree n' -> n = n'.
Proof.
  unfold value_tree. intros H E. destruct (mangle_value t_size n) as [x|] eqn:E1; [|contradiction]. destruct (mangle_value t_size n') as [x'|] eqn:E2; [|discriminate].
  cbn [obind] in E. injection E as E. subst x'. exact (value_inj _ _ _ _ _ size_ity size_ity E1 E2).
Qed.
Lemma value_defined n : 0 <= n -> value_tree n <> None <-> n < W.
Proof.
  intros Hn. rewrite W_eq. unfold value_tree. destruct (mangle_value t_size n) as [x|] eqn:E; cbn [obind].
  - split; [|discriminate]. intros _. destruct (value_some _ _ _ size_ity E) as ([_ H] & _). cbn in H. lia.
  - split; [contradiction|]. intros H _. apply (value_ok t_size n size_ity); [|exact Hn|exact E]. split; cbn; lia.
Qed.

Lemma scalar_wf t : owf (option_map Atom (scalar_name t)).
Proof.
  intros u. destruct t as [t| | | |]; cbn [scalar_name option_map]; try (intros H; injection H as <-; split; [discriminate|reflexivity]); [|discriminate].
  destruct (mangle_value t_int (8 * it_bytes t)) as [x|] eqn:E; [|discriminate]. cbn [obind option_map]. intros H. injection H as <-.
  destruct (value_some _ _ _ int_ity E) as (_ & _ & R). pose proof (proj2 (decimal_plain _ _ R)) as P. apply (plain_app (txt (if it_signed t then "int" else "uint")) (x ++ txt "_t")).
  - destruct (it_signed t); split; (discriminate || reflexivity).
  - rewrite forallb_app, P. reflexivity.
Qed.
Lemma scalar_inj t t' : scalar_name t <> None -> scalar_name t = scalar_name t' -> t = t'.
Proof.
  intros Hd E. destruct t as [t| | | |], t' as [t'| | | |]; cbn [scalar_name] in *; try reflexivity; try contradiction; try discriminate.
  { destruct (mangle_value t_int (8 * it_bytes t)) as [x|] eqn:E1; [|contradiction]. destruct (mangle_value t_int (8 * it_bytes t')) as [x'|] eqn:E2; [|discriminate].
    cbn [obind] in E. injection E as E. destruct t as [b g], t' as [b' g']; cbn [it_bytes it_signed] in *. destruct g, g'; cbn in E; try discriminate; injection E as E;
      apply app_inv_tail in E; subst x'; pose proof (value_inj _ _ _ _ _ int_ity int_ity E1 E2); do 2 f_equal; lia. }
  all: exfalso; match goal with E : context[mangle_value t_int (8 * it_bytes ?u)] |- _ => destruct (mangle_value t_int (8 * it_bytes u)); cbn [obind] in *; destruct (it_signed u) end;
    try discriminate; contradiction.
Qed.
Lemma scalar_defined t : scalar_name t <> None <-> match t with TInt t => 0 <= it_bytes t < 2 ^ 28 | TOther => False | _ => True end.
Proof.
  destruct t as [t| | | |]; cbn [scalar_name]; [|split; [exact (fun _ => I)|discriminate]..|split; [contradiction|contradiction]].
  destruct (mangle_value t_int (8 * it_bytes t)) as [x|] eqn:E; cbn [obind].
  - split; [|discriminate]. intros _. destruct (value_some _ _ _ int_ity E) as ([_ H] & H0 & _). change (ity_max t_int) with 2147483647 in H. lia.
  - split; [contradiction|]. intros H _. apply (value_ok t_int (8 * it_bytes t) int_ity); [|lia|exact E]. split; [change (ity_min t_int) with (-2147483648)|change (ity_max t_int) with 2147483647]; lia.
Qed.

(** ** The text of a type is the text of its tree *)

Lemma dims_print ds : map dim_param ds = map (option_map print) (map dim_tree ds).
Proof. rewrite map_map. apply map_ext, dim_print. Qed.
Lemma dims_wf ds : Forall owf (map dim_tree ds).
Proof. apply Forall_forall. intros o H. apply in_map_iff in H. destruct H as (d & <- & _). apply dim_wf. Qed.
Lemma dims_inj ds : forall ds', Forall (fun p => p <> None) (map dim_tree ds) -> map dim_tree ds = map dim_tree ds' -> ds = ds'.
Proof.
  induction ds as [|d ds IH]; intros [|d' ds'] H E; try discriminate; [reflexivity|]. cbn [map] in H, E. inversion H as [|? ? A B]; subst.
  injection E as E1 E2. f_equal; [apply dim_inj; assumption|apply IH; assumption].
Qed.

Lemma view_print v t : view_params v (option_map print t) = map (option_map print) (view_trees v t).
Proof. destruct v; cbn [view_params view_trees map]; rewrite ?map_app, ?dim_print, ?val_print, ?value_print, ?dims_print; reflexivity. Qed.
Lemma view_wf v t : owf t -> Forall owf (view_trees v t).
Proof. intros H. destruct v; cbn [view_trees app]; repeat (constructor; [auto using dim_wf, val_wf, value_wf|]); auto using dims_wf. Qed.
Lemma view_name_plain v : plain_text (view_name v). Proof. destruct v; split; (discriminate || reflexivity). Qed.

Lemma struct_print tn s : mangle tn s = option_map print (struct_tree tn s) /\ owf (struct_tree tn s).
Proof.
  induction s as [c|d ts IH|d t IH|v t IH|ts IH] using struct_ind'; cbn [mangle struct_tree].
  - split.
    + rewrite <- desc_print by (constructor; [apply scalar_wf|constructor]). cbn [map]. destruct (scalar_name (tn c)); reflexivity.
    + apply desc_wf; [split; (discriminate || reflexivity)|]. constructor; [apply scalar_wf|constructor].
  - assert (Hw : Forall owf (dim_tree d :: map (struct_tree tn) ts)).
    { constructor; [apply dim_wf|]. apply Forall_forall. intros o Ho. apply in_map_iff in Ho. destruct Ho as (t & <- & Ht). rewrite Forall_forall in IH. apply (IH t Ht). }
    split; [|apply desc_wf; [split; (discriminate || reflexivity)|exact Hw]]. rewrite <- desc_print by exact Hw. cbn [map]. rewrite dim_print, map_map. do 2 f_equal.
    apply map_ext_in. intros t Ht. rewrite Forall_forall in IH. apply (IH t Ht).
  - destruct IH as [E W0]. assert (Hw : Forall owf [dim_tree d; struct_tree tn t]) by (repeat (constructor; [auto using dim_wf|]); constructor).
    split; [|apply desc_wf; [split; (discriminate || reflexivity)|exact Hw]]. rewrite <- desc_print by exact Hw. cbn [map]. rewrite dim_print, E. reflexivity.
  - destruct IH as [E W0]. pose proof (view_wf v _ W0) as Hw. split; [|apply desc_wf; [apply view_name_plain|exact Hw]]. rewrite <- desc_print by exact Hw.
    rewrite E, view_print. reflexivity.
  - split; [reflexivity|discriminate].
Qed.

Lemma struct_node tn s t : struct_tree tn s = Some t -> exists n ts, t = Node n ts.
Proof.
  assert (H : forall n ps, desc n ps = Some t -> exists n ts, t = Node n ts).
  { intros n ps H. unfold desc in H. destruct (omap (fun p => p) ps) as [[|u us]|]; [discriminate| |discriminate]. injection H as <-. eauto. }
  destruct s; cbn [struct_tree]; try apply H. discriminate.
Qed.

(** Equal texts come from equal trees. *)
Lemma mangle_tree tn tn' s s' x : mangle tn s = Some x -> mangle tn' s' = Some x -> exists t, struct_tree tn s = Some t /\ struct_tree tn' s' = Some t.
Proof.
  destruct (struct_print tn s) as [-> Hw]. destruct (struct_print tn' s') as [-> Hw']. intros H H'.
  destruct (struct_tree tn s) as [t|]; [|discriminate]. destruct (struct_tree tn' s') as [t'|]; [|discriminate]. cbn [option_map] in *.
  injection H as <-. injection H' as H'. destruct (print_inj t t' [] [] (Hw t eq_refl) (Hw' t' eq_refl) I I) as [<- _]; [rewrite !app_nil_r; congruence|]. eauto.
Qed.

(** ** Equal trees come from equal types *)

Lemma view_inj v v' t t' : view_name v = view_name v' -> view_trees v t = view_trees v' t' -> Forall (fun p => p <> None) (view_trees v t) -> view_code v = view_code v' /\ t = t'.
Proof.
  intros Hn E Hd.
  destruct v, v'; try (exfalso; vm_compute in Hn; discriminate Hn); clear Hn; cbn [view_trees view_code app] in *;
    repeat match goal with H : Forall _ (_ :: _) |- _ => apply Forall_cons_iff in H as [? H] end;
    match type of E with _ = _ => injection E; clear E; intros end; subst;
    repeat match goal with
    | H : dim_tree _ = dim_tree _ |- _ => apply dim_inj in H; [|assumption]; subst
    | H : val_tree _ = val_tree _ |- _ => apply val_inj in H; [|assumption]; rewrite H; clear H
    | H : value_tree _ = value_tree _ |- _ => apply value_tree_inj in H; [|assumption]; rewrite H; clear H
    | H : map dim_tree _ = map dim_tree _ |- _ => apply dims_inj in H; [|assumption]; rewrite H; clear H
    end; auto.
Qed.

Lemma zlist_eqb_eq a : forall b, zlist_eqb a b = true <-> a = b.
Proof.
  induction a as [|x a IH]; intros [|y b]; cbn [zlist_eqb]; try (split; (reflexivity || discriminate)). rewrite andb_true_iff, Z.eqb_eq, IH.
  split; [intros [-> ->]; reflexivity|intros H; injection H as -> ->; auto].
Qed.
Lemma cty_eqb_refl c : cty_eqb c c = true. Proof. destruct c. unfold cty_eqb. rewrite !Z.eqb_refl. reflexivity. Qed.

Definition apart (tn : cty -> cppty) (s s' : struct) : Prop := forall c c', In c (scalars s) -> In c' (scalars s') -> tn c = tn c' -> c = c'.

Lemma apart_below tn d d' ts ts' t t' : apart tn (Tuple d ts) (Tuple d' ts') -> In t ts -> In t' ts' -> apart tn t t'.
Proof. intros H Ht Ht' c c' Hc Hc'. apply H; cbn [scalars]; apply in_flat_map; eauto. Qed.

Lemma tree_type tn s : forall s' t, apart tn s s' -> struct_tree tn s = Some t -> struct_tree tn s' = Some t -> same_type s s' = true.
Proof.
  induction s as [c|d ts IH|d u IH|v u IH|ts IH] using struct_ind'; intros [c'|d' ts'|d' u'|v' u'|ts'] t Ha E E'; cbn [struct_tree] in E, E'; try discriminate;
    destruct (desc_inj _ _ _ _ _ E E') as (Hn & Hp & Hd); try (exfalso; vm_compute in Hn; discriminate Hn); try (exfalso; destruct v; vm_compute in Hn; discriminate Hn);
    try (exfalso; destruct v'; vm_compute in Hn; discriminate Hn); rewrite same_type_eq.
  - injection Hp as Hp. inversion Hd as [|? ? A _]; subst. assert (Hs : scalar_name (tn c) <> None) by (destruct (scalar_name (tn c)); [discriminate|exfalso; apply A; reflexivity]).
    assert (Hq : scalar_name (tn c) = scalar_name (tn c')) by (destruct (scalar_name (tn c)), (scalar_name (tn c')); cbn in Hp; congruence).
    rewrite (Ha c c' (or_introl eq_refl) (or_introl eq_refl) (scalar_inj _ _ Hs Hq)). apply cty_eqb_refl.
  - injection Hp as Hp1 Hp2. apply Forall_cons_iff in Hd as [Hd1 Hd2]. apply dim_inj in Hp1; [|exact Hd1]. subst d'. rewrite Z.eqb_refl. cbn [andb].
    pose proof (apart_below tn d d ts ts') as Hb. specialize (fun t t' => Hb t t' Ha). clear Ha E E' Hn. revert ts' Hp2 Hb. induction ts as [|w ts IHl]; intros [|w' ts'] Hp2 Hb; try discriminate; [reflexivity|].
    cbn [map] in Hp2, Hd2. injection Hp2 as Hw Hp2. apply Forall_cons_iff in Hd2 as [Hw0 Hd2]. inversion IH as [|? ? IH1 IH2]; subst. cbn [same_types]. apply andb_true_iff. split.
    + destruct (struct_tree tn w) as [tw|] eqn:Ew; [|contradiction]. apply (IH1 w' tw); [apply Hb; left; reflexivity|exact eq_refl|symmetry; exact Hw].
    + apply IHl; auto. intros a b Ha Hb'. apply Hb; right; assumption.
  - injection Hp as Hp1 Hp2. apply Forall_cons_iff in Hd as [Hd1 Hd2]. apply Forall_cons_iff in Hd2 as [Hd2 _]. apply dim_inj in Hp1; [|exact Hd1]. subst d'. rewrite Z.eqb_refl. cbn [andb].
    destruct (struct_tree tn u) as [tu|] eqn:Eu; [|contradiction]. exact (IH u' tu Ha eq_refl (eq_sym Hp2)).
  - destruct (view_inj v v' _ _ Hn Hp Hd) as [Hc Ht]. rewrite (proj2 (zlist_eqb_eq _ _) Hc). cbn [andb].
    assert (Hu : struct_tree tn u <> None). { intros Hu. rewrite Hu in Hd. clear -Hd. rewrite Forall_forall in Hd. apply (Hd None); [|reflexivity]. destruct v; cbn [view_trees app In]; tauto. }
    destruct (struct_tree tn u) as [tu|] eqn:Eu; [|contradiction]. exact (IH u' tu Ha eq_refl (eq_sym Ht)).
Qed.

Theorem type_text tn s s' x : told_apart tn (scalars s ++ scalars s') -> mangle tn s = Some x -> mangle tn s' = Some x -> same_type s s' = true.
Proof.
  intros Ha H H'. destruct (mangle_tree tn tn s s' x H H') as (t & E & E'). apply (tree_type tn s s' t); [|exact E|exact E'].
  intros c c' Hc Hc'. apply Ha; apply in_or_app; auto.
Qed.

(** ** Equal types have equal texts *)

Lemma val_name_code v v' : val_code v = val_code v' -> val_name v = val_name v'.
Proof. destruct v, v'; cbn [val_code val_name]; intros H; try discriminate; try reflexivity. injection H as ->. reflexivity. Qed.
Lemma val_code_sta v v' : val_code v = val_code v' <-> vstatic v = vstatic v'.
Proof. destruct v, v'; cbn [val_code vstatic]; split; intros H; try discriminate; try reflexivity; injection H as ->; reflexivity. Qed.

Lemma val_code_app v v' r r' : val_code v ++ r = val_code v' ++ r' -> val_code v = val_code v' /\ r = r'.
Proof. destruct v, v'; cbn [val_code app]; intros H; try discriminate; injection H; intros; subst; split; congruence. Qed.

Lemma pairs_inj (ps : list (dim * dim)) : forall ps', flat_map (fun p => [fst p; snd p]) ps = flat_map (fun p => [fst p; snd p]) ps' -> ps = ps'.
Proof. induction ps as [|[a b] ps IH]; intros [|[a' b'] ps'] H; cbn in H; try discriminate; [reflexivity|]. injection H as -> -> H. rewrite (IH _ H). reflexivity. Qed.

(** Two views of one type, up to their values. *)
Lemma view_same_code v v' : view_code v = view_code v' -> view_rel (fun a b => val_code a = val_code b) v v'.
Proof.
  intros H.
  destruct v, v'; try discriminate H; cbn [view_code app] in H; try (injection H; clear H; intros; subst; try constructor; auto; fail).
  - injection H as -> H. apply val_code_app in H as [A B]. constructor; assumption.
  - injection H as -> H. apply val_code_app in H as [A B]. constructor; assumption.
  - injection H as -> H. apply val_code_app in H as [A B]. constructor; assumption.
  - injection H as H1 H2 H3 H4. apply Nat2Z.inj in H1, H2. subst. constructor.
  - injection H as H. apply pairs_inj in H. subst. constructor.
Qed.

Lemma view_code_params v v' t : view_code v = view_code v' -> view_name v = view_name v' /\ view_params v t = view_params v' t.
Proof.
  intros H. apply view_same_code in H. destruct H; cbn [view_params]; try (split; reflexivity); split; try reflexivity;
    repeat match goal with H : val_code _ = val_code _ |- _ => apply val_name_code in H; rewrite H; clear H end; reflexivity.
Qed.

Theorem type_same tn s : forall s', same_type s s' = true -> mangle tn s = mangle tn s'.
Proof.
  induction s as [c|d ts IH|d u IH|v u IH|ts IH] using struct_ind'; intros [c'|d' ts'|d' u'|v' u'|ts'] H; rewrite same_type_eq in H; try discriminate; cbn [mangle].
  - apply cty_eqb_eq in H. subst. reflexivity.
  - apply andb_true_iff in H as [H1 H2]. apply Z.eqb_eq in H1. subst d'. do 2 f_equal. revert ts' H2.
    induction ts as [|t ts IHl]; intros [|t' ts'] H; try discriminate; [reflexivity|]. cbn [same_types] in H. apply andb_true_iff in H as [A B]. inversion IH as [|? ? IH1 IH2]; subst.
    cbn [map]. rewrite (IH1 t' A), (IHl IH2 ts' B). reflexivity.
  - apply andb_true_iff in H as [H1 H2]. apply Z.eqb_eq in H1. subst d'. rewrite (IH u' H2). reflexivity.
  - apply andb_true_iff in H as [H1 H2]. apply zlist_eqb_eq in H1. rewrite (IH u' H2). destruct (view_code_params v v' (mangle tn u') H1) as [-> ->]. reflexivity.
  - reflexivity.
Qed.

(** ** Which types have a text *)

Lemma Forall_map {A B} (f : A -> B) (P : B -> Prop) l : Forall P (map f l) <-> Forall (fun x => P (f x)) l.
Proof. induction l as [|x l IH]; cbn [map]; [split; constructor|]. rewrite !Forall_cons_iff, IH. reflexivity. Qed.
Lemma dims_defined ds : Forall (fun p => p <> None) (map dim_tree ds) <-> Forall is_char ds.
Proof. rewrite Forall_map. split; apply Forall_impl; intros d; apply dim_defined. Qed.
Lemma pairs_char (ps : list (dim * dim)) : Forall is_char (flat_map (fun p => [fst p; snd p]) ps) <-> Forall (fun p => is_char (fst p) /\ is_char (snd p)) ps.
Proof. induction ps as [|p ps IH]; cbn [flat_map app]; [split; constructor|]. rewrite !Forall_cons_iff, IH. tauto. Qed.

Lemma view_defined v t : Forall (fun p => p <> None) (view_trees v t) <-> nameable_view v /\ t <> None.
Proof.
  unfold nameable_view. destruct v; cbn [view_trees view_values app]; rewrite ?Forall_cons_iff, ?dims_defined, ?pairs_char, ?dim_defined, ?val_defined, ?Forall_nil_iff; try tauto.
  rewrite !value_defined by lia. tauto.
Qed.

Lemma tree_defined tn s : struct_tree tn s <> None <-> nameable tn s.
Proof.
  induction s as [c|d ts IH|d u IH|v u IH|ts IH] using struct_ind'; cbn [struct_tree nameable].
  - rewrite desc_defined, Forall_cons_iff, <- scalar_defined. split; [intros (_ & H & _) E; rewrite E in H; contradiction|]. intros H. split; [discriminate|]. split; [|constructor].
    destruct (scalar_name (tn c)); [discriminate|contradiction].
  - rewrite desc_defined, Forall_cons_iff, dim_defined. assert (E : Forall (fun p => p <> None) (map (struct_tree tn) ts) <-> fold_right (fun t P => nameable tn t /\ P) True ts).
    { induction ts as [|t ts IHl]; cbn [map fold_right]; [split; constructor|]. inversion IH as [|? ? A B]; subst. rewrite Forall_cons_iff, A, (IHl B). reflexivity. }
    rewrite E. split; [tauto|]. intros H. split; [discriminate|exact H].
  - rewrite desc_defined, !Forall_cons_iff, dim_defined, IH. split; [tauto|]. intros H. split; [discriminate|]. repeat split; try apply H. constructor.
  - rewrite desc_defined, view_defined, IH. split; [tauto|]. intros H. split; [destruct v; discriminate|exact H].
  - split; [contradiction|contradiction].
Qed.

Theorem type_defined tn s : mangle tn s <> None <-> nameable tn s.
Proof. rewrite <- tree_defined, (proj1 (struct_print tn s)). destruct (struct_tree tn s); split; (discriminate || contradiction). Qed.

(** ** Expressions *)

Definition val_exp (v : val) : option exp :=
  match v with
  | Sta z => do x <- append_int 8 false (u64 z); Some (ELit x)
  | Dyn z => do x <- append_value t_size (u64 z); Some (EVal u64t x)
  | Undef => None
  end.
Definition struct_exp (ty : option tree) (ms : list (option exp)) : option exp :=
  do ty <- ty; do ms <- omap (fun m => m) ms; Some (EStruct ty ms).
Fixpoint exp_of (tn : cty -> cppty) (s : struct) : option exp :=
  match s with
  | Scalar c => struct_exp (struct_tree tn s) []
  | Tuple d ts => struct_exp (struct_tree tn s) (map (exp_of tn) ts)
  | Vector d t => struct_exp (struct_tree tn s) [exp_of tn t]
  | View v t => struct_exp (struct_tree tn s) (exp_of tn t :: map val_exp (view_values v))
  | Union _ => None
  end.

Definition oewf (o : option exp) : Prop := forall e, o = Some e -> ewf e.

Lemma append_u64 z : exists x, append_int 8 false (u64 z) = Some x /\ append_value t_size (u64 z) = Some x /\ read_decimal x = Some (u64 z).
Proof.
  pose proof (u64_range z) as H. rewrite W_eq in H. destruct (int_text 8 (u64 z) ltac:(lia) ltac:(cbn; lia)) as (x & E & R & _). exists x. auto.
Qed.

Lemma val_exp_print v : append_val v = option_map print_exp (val_exp v).
Proof.
  destruct v as [z|z|]; cbn [append_val val_exp]; [| |reflexivity]; destruct (append_u64 z) as (x & E1 & E2 & _).
  - unfold append_lit. rewrite E1. cbn [obind option_map print_exp lit_tree print flat_map]. rewrite app_nil_r. reflexivity.
  - rewrite u64t_eq, E2. reflexivity.
Qed.
Lemma val_exp_wf v : oewf (val_exp v).
Proof.
  intros e. destruct v as [z|z|]; cbn [val_exp]; [| |discriminate]; destruct (append_u64 z) as (x & E1 & E2 & R); rewrite ?E1, ?E2; cbn [obind]; intros H; injection H as <-; cbn [ewf].
  - exact (decimal_plain _ _ R).
  - split; [apply u64t_plain|exact (decimal_plain _ _ R)].
Qed.
Lemma val_exp_inj v v' : val_exp v <> None -> val_exp v = val_exp v' -> same_value v v'.
Proof.
  intros Hd H. unfold same_value. destruct v as [z|z|], v' as [z'|z'|]; cbn [val_exp] in *; try contradiction;
    try destruct (append_u64 z) as (x & E1 & E2 & R); try destruct (append_u64 z') as (x' & E1' & E2' & R'); rewrite ?E1, ?E2, ?E1', ?E2' in H; cbn [obind] in H; try discriminate H;
    injection H as <-; assert (u64 z = u64 z') by congruence; cbn [vstatic vz]; split; congruence.
Qed.
Lemma val_exp_same v v' : same_value v v' -> val_exp v = val_exp v'.
Proof. intros [A B]. destruct v, v'; cbn [vstatic vz val_exp] in *; try discriminate; try reflexivity; injection B as ->; reflexivity. Qed.

Lemma omap_print_exp ps : omap (fun p => p) (map (option_map print_exp) ps) = option_map (map print_exp) (omap (fun p => p) ps).
Proof. induction ps as [|p ps IH]; [reflexivity|]. cbn [map omap]. fold (omap (fun p : option text => p)). fold (omap (fun p : option exp => p)).
  rewrite IH. destruct p as [t|]; [|reflexivity]. destruct (omap (fun p => p) ps); reflexivity. Qed.
Lemma flat_map_map {A B C} (f : A -> B) (g : B -> list C) l : flat_map g (map f l) = flat_map (fun x => g (f x)) l.
Proof. induction l as [|x l IH]; [reflexivity|]. cbn. rewrite IH. reflexivity. Qed.

Lemma struct_exp_print ty ms : append_struct (option_map print ty) (map (option_map print_exp) ms) = option_map print_exp (struct_exp ty ms).
Proof.
  unfold append_struct, struct_exp. destruct ty as [t|]; [|reflexivity]. cbn [obind option_map]. rewrite omap_print_exp. destruct (omap (fun p => p) ms) as [es|]; [|reflexivity].
  cbn [obind option_map print_exp]. rewrite flat_map_map. reflexivity.
Qed.
Lemma struct_exp_wf ty ms : owf ty -> (forall t, ty = Some t -> exists n ts, t = Node n ts) -> Forall oewf ms -> oewf (struct_exp ty ms).
Proof.
  intros Ht Hn Hm e E. unfold struct_exp in E. destruct ty as [t|]; [|discriminate]. cbn [obind] in E. destruct (omap (fun p => p) ms) as [es|] eqn:Eo; [|discriminate]. cbn [obind] in E.
  injection E as <-. apply omap_id in Eo. subst ms. cbn [ewf]. split; [apply Ht; reflexivity|]. split; [apply Hn; reflexivity|]. apply ewf_all.
  induction es as [|e es IH]; constructor; inversion Hm as [|? ? A B]; subst; [apply A; reflexivity|apply IH, B].
Qed.
Lemma struct_exp_inj ty ty' ms ms' e : struct_exp ty ms = Some e -> struct_exp ty' ms' = Some e -> ty = ty' /\ ty <> None /\ ms = ms' /\ Forall (fun p => p <> None) ms.
Proof.
  unfold struct_exp. destruct ty as [t|], ty' as [t'|]; try discriminate. cbn [obind]. intros H H'.
  destruct (omap (fun p => p) ms) as [es|] eqn:E; [|discriminate]. destruct (omap (fun p => p) ms') as [es'|] eqn:E'; [|discriminate]. cbn [obind] in *.
  pose proof (proj1 (omap_id_defined ms) ltac:(rewrite E; discriminate)) as Hd. apply omap_id in E. apply omap_id in E'. injection H as <-. injection H' as -> ->. subst. repeat split; auto. discriminate.
Qed.

Lemma exp_print tn s : mangle_expr tn s = option_map print_exp (exp_of tn s) /\ oewf (exp_of tn s).
Proof.
  assert (Hv : forall v, Forall oewf (map val_exp (view_values v))) by (intros v; apply Forall_map, Forall_forall; intros x _; apply val_exp_wf).
  assert (Hvp : forall v, map append_val (view_values v) = map (option_map print_exp) (map val_exp (view_values v))) by (intros v; rewrite map_map; apply map_ext, val_exp_print).
  induction s as [c|d ts IH|d u IH|v u IH|ts IH] using struct_ind'; cbn [mangle_expr exp_of].
  - destruct (struct_print tn (Scalar c)) as [-> Hw]. rewrite <- struct_exp_print. split; [reflexivity|]. apply struct_exp_wf; [exact Hw|apply struct_node|constructor].
  - destruct (struct_print tn (Tuple d ts)) as [-> Hw]. rewrite <- struct_exp_print. split.
    + f_equal. rewrite map_map. apply map_ext_in. intros t Ht. rewrite Forall_forall in IH. apply (IH t Ht).
    + apply struct_exp_wf; [exact Hw|apply struct_node|]. apply Forall_map. eapply Forall_impl; [|exact IH]. intros t H. apply H.
  - destruct (struct_print tn (Vector d u)) as [-> Hw]. destruct IH as [-> IH]. rewrite <- struct_exp_print. split; [reflexivity|].
    apply struct_exp_wf; [exact Hw|apply struct_node|]. repeat constructor. exact IH.
  - destruct (struct_print tn (View v u)) as [-> Hw]. destruct IH as [-> IH]. rewrite <- struct_exp_print, Hvp. split; [reflexivity|].
    apply struct_exp_wf; [exact Hw|apply struct_node|]. constructor; [exact IH|apply Hv].
  - split; [reflexivity|discriminate].
Qed.

Lemma mangle_exp tn s s' x : mangle_expr tn s = Some x -> mangle_expr tn s' = Some x -> exists e, exp_of tn s = Some e /\ exp_of tn s' = Some e.
Proof.
  destruct (exp_print tn s) as [-> Hw]. destruct (exp_print tn s') as [-> Hw']. intros H H'.
  destruct (exp_of tn s) as [t|]; [|discriminate]. destruct (exp_of tn s') as [t'|]; [|discriminate]. cbn [option_map] in *.
  injection H as <-. injection H' as H'. destruct (print_exp_inj t t' [] [] (Hw t eq_refl) (Hw' t' eq_refl) I I) as [<- _]; [rewrite !app_nil_r; congruence|]. eauto.
Qed.

(** ** Same types and same values *)

Lemma view_rel_values v v' : view_code v = view_code v' -> Forall2 same_value (view_values v) (view_values v') -> view_rel same_value v v'.
Proof.
  intros H Hv. apply view_same_code in H. destruct H; cbn [view_values] in Hv; try constructor;
    repeat match goal with H : Forall2 _ (_ :: _) (_ :: _) |- _ => inversion H; clear H; subst end; auto.
Qed.
Lemma view_values_rel v v' : view_rel same_value v v' -> Forall2 same_value (view_values v) (view_values v').
Proof. intros H. destruct H; cbn [view_values]; repeat constructor; try apply H; try apply H0. Qed.

Lemma exp_rel tn s : forall s' e, apart tn s s' -> exp_of tn s = Some e -> exp_of tn s' = Some e -> struct_rel same_value s s'.
Proof.
  assert (Hvals : forall l l', Forall (fun p => p <> None) (map val_exp l) -> map val_exp l = map val_exp l' -> Forall2 same_value l l').
  { induction l as [|x l IH]; intros [|y l'] Hd E; try discriminate; constructor; cbn [map] in *; inversion Hd as [|? ? A B]; subst; injection E as E1 E2; [apply val_exp_inj; assumption|apply IH; assumption]. }
  induction s as [c|d ts IH|d u IH|v u IH|ts IH] using struct_ind'; intros [c'|d' ts'|d' u'|v' u'|ts'] e Ha E E'; cbn [exp_of] in E, E'; try discriminate;
    destruct (struct_exp_inj _ _ _ _ _ E E') as (Ht & Hty & Hm & Hd); clear E E';
    match type of Hty with struct_tree _ ?a <> None => destruct (struct_tree tn a) as [t|] eqn:Et; [|contradiction]; symmetry in Ht end;
    pose proof (tree_type tn _ _ _ Ha Et Ht) as Hs; rewrite same_type_eq in Hs; try discriminate Hs.
  - apply cty_eqb_eq in Hs. subst. constructor.
  - apply andb_true_iff in Hs as [Hs _]. apply Z.eqb_eq in Hs. subst d'. constructor. pose proof (apart_below tn d d ts ts') as Hb. specialize (fun t t' => Hb t t' Ha).
    clear Ha Ht Hty Et. revert ts' Hm Hb. induction ts as [|w ts IHl]; intros [|w' ts'] Hm Hb; try discriminate; [constructor|]. cbn [map] in Hm, Hd. injection Hm as Hw Hm.
    apply Forall_cons_iff in Hd as [Hw0 Hd]. inversion IH as [|? ? IH1 IH2]; subst. constructor.
    + destruct (exp_of tn w) as [ew|] eqn:Ew; [|contradiction]. apply (IH1 w' ew); [apply Hb; left; reflexivity|exact eq_refl|symmetry; exact Hw].
    + apply IHl; auto. intros a b Ha Hb'. apply Hb; right; assumption.
  - apply andb_true_iff in Hs as [Hs _]. apply Z.eqb_eq in Hs. subst d'. constructor. apply Forall_cons_iff in Hd as [Hd _]. injection Hm as Hm.
    destruct (exp_of tn u) as [eu|] eqn:Eu; [|contradiction]. exact (IH u' eu Ha eq_refl (eq_sym Hm)).
  - apply andb_true_iff in Hs as [Hs _]. apply zlist_eqb_eq in Hs. apply Forall_cons_iff in Hd as [Hd Hdv]. injection Hm as Hm Hmv. constructor.
    + apply view_rel_values; [exact Hs|]. apply Hvals; assumption.
    + destruct (exp_of tn u) as [eu|] eqn:Eu; [|contradiction]. exact (IH u' eu Ha eq_refl (eq_sym Hm)).
Qed.

Lemma Forall2_app_split {A} (R : A -> A -> Prop) a : forall a' b b', List.length a = List.length a' -> Forall2 R (a ++ b) (a' ++ b') -> Forall2 R a a' /\ Forall2 R b b'.
Proof.
  induction a as [|x a IH]; intros [|y a'] b b' H F; try discriminate; cbn [app] in F; [auto|]. inversion F as [|? ? ? ? F1 F2]; subst. injection H as H.
  destruct (IH a' b b' H F2). split; [constructor|]; assumption.
Qed.

Lemma values_length v v' : view_code v = view_code v' -> List.length (view_values v) = List.length (view_values v').
Proof. intros H. apply view_same_code in H. destruct H; reflexivity. Qed.
Lemma stored_length s : forall s', same_type s s' = true -> List.length (stored s) = List.length (stored s').
Proof.
  assert (Hl : forall ts, Forall (fun s => forall s', same_type s s' = true -> List.length (stored s) = List.length (stored s')) ts ->
    forall ts', same_types ts ts' = true -> List.length (flat_map stored ts) = List.length (flat_map stored ts')).
  { induction ts as [|t ts IHl]; intros IH [|t' ts'] H; try discriminate; [reflexivity|]. cbn [same_types] in H. apply andb_true_iff in H as [A B]. inversion IH as [|? ? IH1 IH2]; subst.
    cbn [flat_map]. rewrite !app_length, (IH1 t' A), (IHl IH2 ts' B). reflexivity. }
  induction s as [c|d ts IH|d u IH|v u IH|ts IH] using struct_ind'; intros [c'|d' ts'|d' u'|v' u'|ts'] H; rewrite same_type_eq in H; try discriminate; cbn [stored].
  - reflexivity.
  - apply andb_true_iff in H as [_ H]. apply Hl; assumption.
  - apply andb_true_iff in H as [_ H]. apply IH; assumption.
  - apply andb_true_iff in H as [Hv H]. apply zlist_eqb_eq in Hv. rewrite !app_length, (values_length v v' Hv), (IH u' H). reflexivity.
  - apply Hl; assumption.
Qed.

Lemma rel_of s : forall s', same_type s s' = true -> Forall2 same_value (stored s) (stored s') -> struct_rel same_value s s'.
Proof.
  assert (Hl : forall ts, Forall (fun s => forall s', same_type s s' = true -> Forall2 same_value (stored s) (stored s') -> struct_rel same_value s s') ts ->
    forall ts', same_types ts ts' = true -> Forall2 same_value (flat_map stored ts) (flat_map stored ts') -> Forall2 (struct_rel same_value) ts ts').
  { induction ts as [|t ts IHl]; intros IH [|t' ts'] H F; try discriminate; [constructor|]. cbn [same_types] in H. apply andb_true_iff in H as [A B]. inversion IH as [|? ? IH1 IH2]; subst.
    cbn [flat_map] in F. destruct (Forall2_app_split _ _ _ _ _ (stored_length t t' A) F). constructor; auto. }
  induction s as [c|d ts IH|d u IH|v u IH|ts IH] using struct_ind'; intros [c'|d' ts'|d' u'|v' u'|ts'] H F; rewrite same_type_eq in H; try discriminate; cbn [stored] in F.
  - apply cty_eqb_eq in H. subst. constructor.
  - apply andb_true_iff in H as [E H]. apply Z.eqb_eq in E. subst. constructor. apply Hl; assumption.
  - apply andb_true_iff in H as [E H]. apply Z.eqb_eq in E. subst. constructor. apply IH; assumption.
  - apply andb_true_iff in H as [Hv H]. apply zlist_eqb_eq in Hv. destruct (Forall2_app_split _ _ _ _ _ (values_length v v' Hv) F). constructor; [apply view_rel_values; assumption|apply IH; assumption].
  - constructor. apply Hl; assumption.
Qed.

Lemma Forall2_flat {A B} (R : A -> A -> Prop) (f : B -> list A) l l' : Forall2 (fun a b => Forall2 R (f a) (f b)) l l' -> Forall2 R (flat_map f l) (flat_map f l').
Proof. intros H. induction H; [constructor|]. cbn [flat_map]. apply Forall2_app; assumption. Qed.

Lemma rel_stored s s' : struct_rel same_value s s' -> Forall2 same_value (stored s) (stored s').
Proof.
  intros H. induction H as [c|d ts ts' Hs IH|d t t' Hs IH|v v' t t' Hv Hs IH|ts ts' Hs IH] using struct_rel_ind'; cbn [stored]; auto.
  - apply Forall2_flat, IH.
  - apply Forall2_app; [apply view_values_rel, Hv|exact IH].
  - apply Forall2_flat, IH.
Qed.

(** ** The values form a congruence *)

Lemma same_value_inv a b : same_value a b ->
  (exists x y, a = Sta x /\ b = Sta y /\ u64 x = u64 y) \/ (exists x y, a = Dyn x /\ b = Dyn y /\ u64 x = u64 y) \/ (a = Undef /\ b = Undef).
Proof.
  intros [A B]. destruct a as [x|x|], b as [y|y|]; cbn [vstatic vz] in *; try discriminate; [left|right; left|right; right; auto]; exists x, y; repeat split; congruence.
Qed.

Lemma congruence_same_value : congruence same_value.
Proof.
  pose proof congruence_same_vtype as G.
  assert (Hvz : forall f : val -> val -> val, (forall a a' b b', same_value a a' -> same_value b b' -> vz (f a b) = vz (f a' b')) ->
    (forall a a' b b', same_vtype a a' -> same_vtype b b' -> same_vtype (f a b) (f a' b')) ->
    forall a a' b b', same_value a a' -> same_value b b' -> same_value (f a b) (f a' b')).
  { intros f H1 H2 a a' b b' Ha Hb. split; [apply H2; [apply Ha|apply Hb]|apply H1; assumption]. }
  split.
  - intros z. split; reflexivity.
  - intros a b H. apply H.
  - apply Hvz; [|apply (cg_add _ G)]. intros a a' b b' [_ Ha] [_ Hb]. rewrite !vz_vadd, Ha, Hb. reflexivity.
  - apply Hvz; [|apply (cg_sub _ G)]. intros a a' b b' [_ Ha] [_ Hb]. rewrite !vz_vsub, Ha, Hb. reflexivity.
  - apply Hvz; [|apply (cg_mul _ G)]. intros a a' b b' Ha Hb. apply same_value_inv in Ha, Hb.
    destruct Ha as [(x & x' & -> & -> & Hx)|[(x & x' & -> & -> & Hx)|[-> ->]]], Hb as [(y & y' & -> & -> & Hy)|[(y & y' & -> & -> & Hy)|[-> ->]]];
      unfold vmul, is_sta, dyn2; cbn [vz]; rewrite ?Hx, ?Hy; try reflexivity; try (destruct (_ =? 0); reflexivity).
    rewrite !u64_u64. f_equal. apply (u64_cong2 Z.mul); auto. intros; rewrite u64_mul_l, u64_mul_r; reflexivity.
  - apply Hvz; [|apply (cg_div _ G)]. intros a a' b b' Ha Hb. apply same_value_inv in Ha, Hb.
    destruct Ha as [(x & x' & -> & -> & Hx)|[(x & x' & -> & -> & Hx)|[-> ->]]], Hb as [(y & y' & -> & -> & Hy)|[(y & y' & -> & -> & Hy)|[-> ->]]];
      unfold vdiv, is_sta, dyn2nz; cbn [vz]; rewrite ?Hx, ?Hy; reflexivity.
  - apply Hvz; [|apply (cg_mod _ G)]. intros a a' b b' Ha Hb. apply same_value_inv in Ha, Hb.
    destruct Ha as [(x & x' & -> & -> & Hx)|[(x & x' & -> & -> & Hx)|[-> ->]]], Hb as [(y & y' & -> & -> & Hy)|[(y & y' & -> & -> & Hy)|[-> ->]]];
      unfold vmod, is_sta, dyn2nz; cbn [vz]; rewrite ?Hx, ?Hy; reflexivity.
  - apply Hvz; [|apply (cg_lt _ G)]. intros a a' b b' [_ Ha] [_ Hb]. unfold vlt. rewrite Ha, Hb. reflexivity.
  - apply Hvz; [|apply (cg_dmul _ G)]. intros a a' b b' [_ Ha] [_ Hb]. unfold dyn2. rewrite Ha, Hb. reflexivity.
  - intros sl gl a a' l l' [_ Ha] Hl. assert (E : zc_indices sl gl a l = zc_indices sl gl a' l').
    { unfold zc_indices. rewrite Ha. assert (Eo : omap vz l = omap vz l') by (clear -Hl; induction Hl as [|x y l l' [_ H] _ IH]; [reflexivity|]; cbn [omap]; fold (omap vz); rewrite H, IH; reflexivity).
      rewrite Eo. assert (El : List.length l = List.length l') by (apply (Forall2_len _ _ _ Hl)). rewrite El. destruct (vz a'); [destruct (omap vz l')|]; try reflexivity.
      all: clear -Hl; induction Hl; [reflexivity|cbn; congruence]. }
    rewrite E. clear. induction (zc_indices sl gl a' l') as [|x l IH]; constructor; [split; reflexivity|exact IH].
Qed.

(** ** The text of an expression *)

Lemma apart_of tn s s' : told_apart tn (scalars s ++ scalars s') -> apart tn s s'.
Proof. intros H c c' Hc Hc'. apply H; apply in_or_app; auto. Qed.

Lemma rel_type s s' : struct_rel same_value s s' -> same_type s s' = true.
Proof. intros H. rewrite <- (same_type_rel same_value congruence_same_value s s' H s). apply same_type_refl. Qed.

Lemma rel_exp tn s s' : struct_rel same_value s s' -> mangle_expr tn s = mangle_expr tn s'.
Proof.
  intros H. induction H as [c|d ts ts' Hs IH|d t t' Hs IH|v v' t t' Hv Hs IH|ts ts' Hs IH] using struct_rel_ind'; cbn [mangle_expr].
  - reflexivity.
  - rewrite (type_same tn _ _ (rel_type _ _ (RTuple _ d _ _ Hs))). f_equal. clear Hs. induction IH; [reflexivity|]. cbn [map]. congruence.
  - rewrite (type_same tn _ _ (rel_type _ _ (RVector _ d _ _ Hs))). congruence.
  - rewrite (type_same tn _ _ (rel_type _ _ (RView _ _ _ _ _ Hv Hs))), IH. do 2 f_equal. apply view_values_rel in Hv. induction Hv as [|x y l l' E _ IHv]; [reflexivity|]. cbn [map].
    rewrite IHv, !val_exp_print, (val_exp_same _ _ E). reflexivity.
  - reflexivity.
Qed.

Theorem expr_text tn s s' : told_apart tn (scalars s ++ scalars s') -> mangle_expr tn s <> None ->
  mangle_expr tn s = mangle_expr tn s' <-> same_type s s' = true /\ Forall2 same_value (stored s) (stored s').
Proof.
  intros Ha Hd. split.
  - intros E. destruct (mangle_expr tn s) as [x|] eqn:Ex; [|contradiction]. destruct (mangle_exp tn s s' x Ex (eq_sym E)) as (e & E1 & E2).
    pose proof (exp_rel tn s s' e (apart_of _ _ _ Ha) E1 E2) as H. split; [apply rel_type, H|apply rel_stored, H].
  - intros [A B]. apply rel_exp, rel_of; assumption.
Qed.

Lemma exp_defined tn s : exp_of tn s <> None <-> nameable tn s /\ Forall (fun v => v <> Undef) (stored s).
Proof.
  assert (Hse : forall ty ms, struct_exp ty ms <> None <-> ty <> None /\ Forall (fun p => p <> None) ms).
  { intros ty ms. rewrite <- omap_id_defined. unfold struct_exp. destruct ty; cbn [obind]; [|tauto]. destruct (omap (fun p => p) ms); cbn [obind]; split; intros; (split; discriminate) || discriminate || tauto. }
  assert (Hv : forall l, Forall (fun p => p <> None) (map val_exp l) <-> Forall (fun v => v <> Undef) l).
  { intros l. rewrite Forall_map. assert (Hx : forall v, val_exp v <> None <-> v <> Undef); [|split; apply Forall_impl; intros v; apply Hx].
    intros [z|z|]; cbn [val_exp]; [destruct (append_u64 z) as (x & E1 & E2 & _); rewrite ?E1, ?E2; cbn [obind]; split; discriminate..|split; contradiction]. }
  induction s as [c|d ts IH|d u IH|v u IH|ts IH] using struct_ind'; cbn [exp_of stored].
  - rewrite Hse, tree_defined. split; [intros [H _]; split; [exact H|constructor]|intros [H _]; split; [exact H|constructor]].
  - rewrite Hse, tree_defined. assert (E : nameable tn (Tuple d ts) -> Forall (fun p => p <> None) (map (exp_of tn) ts) <-> Forall (fun v => v <> Undef) (flat_map stored ts)); [|tauto].
    cbn [nameable]. intros [_ Hn]. induction ts as [|t ts IHl]; cbn [map flat_map]; [split; constructor|]. inversion IH as [|? ? A B]; subst. destruct Hn as [Hn1 Hn2].
    rewrite Forall_cons_iff, Forall_app, A, (IHl B Hn2). tauto.
  - rewrite Hse, tree_defined, Forall_cons_iff, IH. cbn [nameable]. split; [tauto|]. intros H. repeat split; try apply H. constructor.
  - rewrite Hse, tree_defined, Forall_cons_iff, IH, Hv, Forall_app. cbn [nameable]. tauto.
  - cbn [nameable]. split; [contradiction|tauto].
Qed.

Theorem expr_defined tn s : mangle_expr tn s <> None <-> nameable tn s /\ Forall (fun v => v <> Undef) (stored s).
Proof. rewrite <- exp_defined, (proj1 (exp_print tn s)). destruct (exp_of tn s); split; (discriminate || contradiction). Qed.

Theorem expr_behaves tn s s' st q x : told_apart tn (scalars s ++ scalars s') -> mangle_expr tn s = Some x -> mangle_expr tn s' = Some x -> signature s <> None ->
  signature s = signature s' /\ has_length s q st = has_length s' q st /\ same_answer (length_ s q st) (length_ s' q st) /\
  has_size s st = has_size s' st /\ same_answer (size_ s st) (size_ s' st) /\ has_offset s st = has_offset s' st /\ same_answer (offset s st) (offset s' st).
Proof.
  intros Ha E E' Hc. destruct (mangle_exp tn s s' x E E') as (e & E1 & E2). pose proof (exp_rel tn s s' e (apart_of _ _ _ Ha) E1 E2) as H.
  pose proof congruence_same_value as HR. assert (Hst : forall P, srel same_value P st st).
  { intros P d _. split; destruct (get _ st); try exact I; split; reflexivity. }
  split; [apply (signature_rel same_value HR s s' H)|].
  destruct (ans_length same_value HR s s' H Hc st st (Hst _) q (Hst _)) as [A B].
  repeat split; [exact A|exact B|..].
  - eapply ans_has_size; eauto.
  - apply (ans_size same_value HR s s' H Hc st st (Hst _)).
  - apply (ans_has_offset same_value HR s s' H Hc st st (Hst _)).
  - apply (ans_offset same_value HR s s' H Hc st st (Hst _)).
Qed.

(** ** The text reads as the structure *)

Lemma omap_texts (ps : list (option text)) xs : omap (fun p => p) ps = Some xs -> ps = map Some xs. Proof. apply omap_id. Qed.

Lemma concat_comma xs : Forall (fun x : text => x <> []) xs -> xs <> [] -> concat_sep [44] xs = Some (comma_list xs).
Proof.
  intros H Hne. destruct xs as [|x xs]; [contradiction|]. clear Hne. cbn [concat_sep]. f_equal. inversion H as [|? ? Hx Hxs]; subst. clear H. revert x Hx.
  induction xs as [|y xs IH]; intros x Hx; [reflexivity|]. inversion Hxs as [|? ? Hy Hxs']; subst. cbn [fold_left].
  assert (E : concat2 [44] x y = x ++ 44 :: y) by (destruct x, y; (contradiction || reflexivity)).
  rewrite E, (IH Hxs' (x ++ 44 :: y)) by (destruct x; discriminate). destruct xs as [|z xs]; cbn [comma_list]; change (txt ",") with [44]; [reflexivity|].
  rewrite <- !app_assoc. reflexivity.
Qed.

(** [mangle_desc] with parameters that read as the arguments. *)
Lemma desc_reads tn name ps args x : mangle_desc (txt name) ps = Some x -> Forall (fun p => p <> Some []) ps ->
  Forall2 (fun p a => forall y, p = Some y -> is_arg tn y a) ps args -> exists xs, are_args tn xs args /\ x = txt name ++ txt "<" ++ comma_list xs ++ txt ">".
Proof.
  unfold mangle_desc. intros H Hne HF. destruct (omap (fun p => p) ps) as [xs|] eqn:E; [|discriminate]. cbn [obind] in H. apply omap_id in E. subst ps.
  destruct xs as [|y ys] eqn:Ex; [discriminate|]. rewrite <- Ex in *. change (txt ",") with [44] in H. rewrite concat_comma in H.
  - cbn [obind] in H. injection H as <-. exists xs. split; [|reflexivity]. clear -HF. revert args HF. induction xs as [|x xs IH]; intros args HF; inversion HF; subst; constructor; auto.
  - clear -Hne. induction xs as [|z xs IH]; constructor; inversion Hne as [|? ? A B]; subst; [intros ->; apply A; reflexivity|apply IH, B].
  - subst xs. discriminate.
Qed.

Lemma dim_reads tn d y : dim_param d = Some y -> is_arg tn y (ADim d).
Proof. rewrite dim_print. intros H. assert (Hc : is_char d) by (apply dim_defined; intros E; rewrite E in H; discriminate). rewrite <- dim_print in H. unfold dim_param in H.
  destruct (_ && _); [|discriminate]. injection H as <-. apply (arg_dim tn d Hc). Qed.
Lemma val_reads tn v y : val_name v = Some y -> is_arg tn y (AVal v).
Proof.
  unfold val_name. rewrite u64t_eq. intros H. constructor. destruct v as [z|z|]; cbn [is_val_type obind] in *; [|injection H as <-; reflexivity..].
  destruct (mangle_value t_int (u64 z)) as [n|] eqn:E; [|discriminate]. cbn [obind] in H. injection H as <-. exists n. split; [apply (value_some _ _ _ int_ity E)|reflexivity].
Qed.
Lemma num_reads tn z y : value_param z = Some y -> is_arg tn y (ANum z).
Proof.
  unfold value_param. rewrite u64t_eq. cbn [obind]. destruct (mangle_value t_size z) as [n|] eqn:E; [|discriminate]. cbn [obind]. intros H. injection H as <-.
  apply (arg_num tn n z). apply (value_some _ _ _ size_ity E).
Qed.
Lemma elem_reads tn c y : scalar_name (tn c) = Some y -> is_arg tn y (AElem c).
Proof.
  intros H. constructor. unfold is_elem. destruct (tn c) as [t| | | |]; cbn [scalar_name] in H; try (injection H as <-; reflexivity); [|discriminate].
  destruct (mangle_value t_int (8 * it_bytes t)) as [n|] eqn:E; [|discriminate]. cbn [obind] in H. injection H as <-. exists n. split; [apply (value_some _ _ _ int_ity E)|reflexivity].
Qed.

Lemma owf_ne (o : option tree) : owf o -> option_map print o <> Some [].
Proof. intros H E. destruct o as [t|]; [|discriminate]. injection E as E. exact (print_ne t (H t eq_refl) E). Qed.
Lemma owfs_ne ps : Forall owf ps -> Forall (fun p => p <> Some []) (map (option_map print) ps).
Proof. intros H. apply Forall_map. eapply Forall_impl; [|exact H]. intros o. apply owf_ne. Qed.

Theorem type_reads tn s : forall x, mangle tn s = Some x -> is_type tn x s.
Proof.
  assert (Hdims : forall ds, Forall2 (fun p a => forall y, p = Some y -> is_arg tn y a) (map dim_param ds) (map ADim ds)).
  { induction ds as [|d ds IH]; constructor; [apply dim_reads|exact IH]. }
  assert (Hpairs : forall ps, map ADim (flat_map (fun p : dim * dim => [fst p; snd p]) ps) = flat_map (fun p => [ADim (fst p); ADim (snd p)]) ps).
  { induction ps as [|p ps IH]; [reflexivity|]. cbn. rewrite IH. reflexivity. }
  assert (Hgo : forall s name ps args x, template_args s = Some (name, args) -> mangle_desc (txt name) ps = Some x -> Forall (fun p => p <> Some []) ps ->
    Forall2 (fun p a => forall y, p = Some y -> is_arg tn y a) ps args -> is_type tn x s).
  { intros s0 name ps args x Ht H Hne HF. destruct (desc_reads tn name ps args x H Hne HF) as (xs & A & ->). exact (is_type_args tn s0 name args xs Ht A). }
  induction s as [c|d ts IH|d u IH|v u IH|ts IH] using struct_ind'; intros x H; cbn [mangle] in H.
  - eapply (Hgo _ "scalar"%string); [reflexivity|exact H|repeat constructor; intros E; pose proof (owf_ne _ (scalar_wf (tn c))) as N; apply N; rewrite E; reflexivity|].
    constructor; [apply elem_reads|constructor].
  - eapply (Hgo _ "tuple_t"%string); [reflexivity|exact H| |].
    + constructor; [rewrite dim_print; apply owf_ne, dim_wf|]. apply Forall_map. apply Forall_forall. intros t Ht. destruct (struct_print tn t) as [-> Hw]. apply owf_ne, Hw.
    + constructor; [apply dim_reads|]. clear H. induction IH as [|t ts A _ IHl]; constructor; [intros y Hy; constructor; apply A, Hy|exact IHl].
  - eapply (Hgo _ "vector_t"%string); [reflexivity|exact H| |].
    + constructor; [rewrite dim_print; apply owf_ne, dim_wf|]. constructor; [|constructor]. destruct (struct_print tn u) as [-> Hw]. apply owf_ne, Hw.
    + constructor; [apply dim_reads|]. constructor; [intros y Hy; constructor; apply IH, Hy|constructor].
  - assert (Hu : forall y, mangle tn u = Some y -> is_arg tn y (AStruct u)) by (intros y Hy; constructor; apply IH, Hy).
    destruct (view_args v u) as [name args] eqn:Ev. apply (Hgo (View v u) name (view_params v (mangle tn u)) args x).
    + cbn [template_args]. rewrite Ev. reflexivity.
    + replace (txt name) with (view_name v); [exact H|]. destruct v; injection Ev as <- _; reflexivity.
    + destruct (struct_print tn u) as [-> Hw]. rewrite view_print. apply owfs_ne, view_wf, Hw.
    + destruct v; injection Ev as <- <-; cbn [view_params app]; rewrite <- ?Hpairs; repeat (constructor; [first [exact Hu|apply dim_reads|apply val_reads|apply num_reads]|]); try constructor; auto.
  - discriminate.
Qed.

Lemma val_reads_expr v y : append_val v = Some y -> is_val y v.
Proof.
  unfold append_val. destruct v as [z|z|]; [| |discriminate]; destruct (append_u64 z) as (n & E1 & E2 & R).
  - unfold append_lit. rewrite E1. intros H. injection H as <-. exists n. split; [exact R|reflexivity].
  - rewrite u64t_eq, E2. intros H. injection H as <-. exists n. split; [exact R|reflexivity].
Qed.

Theorem expr_reads tn s : forall x, mangle_expr tn s = Some x -> is_expr tn x s.
Proof.
  assert (Hap : forall ty ms x, append_struct ty ms = Some x -> exists t es, ty = Some t /\ ms = map Some es /\ x = t ++ txt "{" ++ flat_map (fun m => m ++ txt ",") es ++ txt "}").
  { unfold append_struct. intros [t|] ms x H; [|discriminate]. cbn [obind] in H. destruct (omap (fun m => m) ms) as [es|] eqn:E; [|discriminate]. apply omap_id in E. injection H as <-. eauto. }
  assert (Hvs : forall vs es, map append_val vs = map Some es -> Forall2 is_val es vs).
  { induction vs as [|v vs IH]; intros [|e es] H; try discriminate; constructor; injection H as H1 H2; [apply val_reads_expr, H1|apply IH, H2]. }
  induction s as [c|d ts IH|d u IH|v u IH|ts IH] using struct_ind'; intros x H; cbn [mangle_expr] in H; try discriminate;
    destruct (Hap _ _ _ H) as (t & es & Et & Em & ->); apply type_reads in Et; apply is_expr_members; try exact Et.
  - destruct es; [|discriminate]. constructor. constructor.
  - clear -Em IH. revert es Em. induction IH as [|w ts A _ IHl]; intros [|e es] Em; try discriminate; [constructor; constructor|]. cbn [map] in Em. injection Em as E1 E2.
    constructor; [apply A, E1|apply IHl, E2].
  - destruct es as [|e [|]]; try discriminate. injection Em as Em. constructor; [apply IH, Em|]. constructor. constructor.
  - destruct es as [|e es]; try discriminate. cbn [map] in Em. injection Em as E1 E2. constructor; [apply IH, E1|]. constructor. apply Hvs, E2.
Qed.
