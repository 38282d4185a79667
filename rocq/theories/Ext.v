(** * The integer reading depends only on the values of its arguments *)

From Verif Require Export Bytes.

Definition eqf {B} (f g : dim -> B) : Prop := forall d, f d = g d.

Lemma eqf_refl {B} (f : dim -> B) : eqf f f.
Proof. intros d. reflexivity. Qed.
Lemma eqf_sym {B} (f g : dim -> B) : eqf f g -> eqf g f.
Proof. intros H d. symmetry. apply H. Qed.

Lemma fupd_ext {B} (f g : dim -> B) d x y : eqf f g -> x = y -> eqf (fupd f d x) (fupd g d y).
Proof. intros H -> q. unfold fupd. destruct (q =? d); auto. Qed.
Lemma fupds_ext {B} (f g : dim -> B) xs : eqf f g -> eqf (fupds f xs) (fupds g xs).
Proof. intros H. induction xs as [|[d x] xs IH]; simpl; [exact H|]. apply fupd_ext; auto. Qed.

Lemma view_lenv_ext v l l' : eqf l l' -> eqf (view_lenv v l) (view_lenv v l').
Proof.
  intros H. destruct v as [d|d i|d n|d sh|d sh n|d sh e|d sh r|d|d M m|d M m pd|d b M m ml|M m d|sl gl d ds|ds|d|ps|xa xb d];
    cbn [view_lenv fupds]; try exact H; repeat apply fupd_ext; try exact H; try reflexivity.
  - rewrite (H d). reflexivity.
  - rewrite (H M), (H m). reflexivity.
  - rewrite (H M), (H m). reflexivity.
  - apply fupds_ext, H.
  - intros q. rewrite !(H _). reflexivity.
  - apply H.
  - apply H.
Qed.

Definition ilx (il : lenv -> asg -> dim -> Z) : Prop := forall l l' a a' q, eqf l l' -> eqf a a' -> il l a q = il l' a' q.

Lemma view_asg_ext v il l l' a a' : ilx il -> eqf l l' -> eqf a a' -> eqf (view_asg v il l a) (view_asg v il l' a').
Proof.
  intros Hi Hl Ha. pose proof (view_lenv_ext v _ _ Hl) as Hv. unfold view_asg.
  set (lv := view_lenv v l) in *. set (lv' := view_lenv v l') in *. clearbody lv lv'.
  assert (Hm : forall M m x, minor_len l M m x = minor_len l' M m x) by (intros; unfold minor_len; rewrite !(Hl _); reflexivity).
  assert (Hmu : forall M m x, minor_len_up l M m x = minor_len_up l' M m x) by (intros; unfold minor_len_up; rewrite !(Hl _); reflexivity).
  destruct v as [d|d i|d n|d sh|d sh n|d sh e|d sh r|d|d M m|d M m pd|d b M m ml|M m d|sl gl d ds|ds|d|ps|xa xb d];
    cbn [fupds]; try exact Ha; repeat apply fupd_ext; try exact Ha; try reflexivity;
    rewrite ?Hm, ?Hmu, ?(Hi lv lv' a a') by assumption.
  - rewrite (Ha d). reflexivity.
  - rewrite (Ha d). reflexivity.
  - rewrite (Ha d). reflexivity.
  - rewrite (Ha d). reflexivity.
  - rewrite (Ha d). reflexivity.
  - rewrite (Ha M), (Ha m). reflexivity.
  - rewrite (Ha M), (Ha m). reflexivity.
  - rewrite (Ha M), (Ha m), (Ha b). reflexivity.
  - rewrite (Hi lv lv' _ (fupd (fupd a' m 0) M 0)) by (repeat apply fupd_ext; auto). rewrite (Ha d). reflexivity.
  - rewrite (Hi lv lv' _ (fupd (fupd a' m 0) M 0)) by (repeat apply fupd_ext; auto). rewrite (Ha d). reflexivity.
  - rewrite (Ha d). replace (map (fun q => Dyn (il lv _ q)) ds) with (map (fun q => Dyn (il lv' (fupds a' (map (fun q => (q, 0)) ds)) q)) ds); [apply fupds_ext, Ha|].
    apply map_ext. intros q. f_equal. apply Hi; [apply eqf_sym; exact Hv|apply fupds_ext, eqf_sym, Ha].
  - intros q. apply Ha.
  - apply Ha.
  - apply Ha.
Qed.

Lemma view_ilen_ext v il l l' a a' q : ilx il -> eqf l l' -> eqf a a' -> view_ilen v il l a q = view_ilen v il l' a' q.
Proof.
  intros Hi Hl Ha. pose proof (view_asg_ext v il _ _ _ _ Hi Hl Ha) as Hva. pose proof (view_lenv_ext v _ _ Hl) as Hv. unfold view_ilen.
  set (lv := view_lenv v l) in *. set (lv' := view_lenv v l') in *. clearbody lv lv'.
  set (av := view_asg v il l a) in *. set (av' := view_asg v il l' a') in *. clearbody av av'.
  assert (Hm : forall M m x, minor_len l M m x = minor_len l' M m x) by (intros; unfold minor_len; rewrite !(Hl _); reflexivity).
  assert (Hmu : forall M m x, minor_len_up l M m x = minor_len_up l' M m x) by (intros; unfold minor_len_up; rewrite !(Hl _); reflexivity).
  assert (H1 : forall x, il lv av x = il lv' av' x) by (intros; apply Hi; auto).
  assert (H2 : forall x, il lv a x = il lv' a' x) by (intros; apply Hi; auto).
  destruct v as [d|d i|d n|d sh|d sh n|d sh e|d sh r|d|d M m|d M m pd|d b M m ml|M m d|sl gl d ds|ds|d|ps|xa xb d]; rewrite ?H1, ?H2, ?Hm, ?Hmu; try reflexivity.
  - rewrite (Hl d). reflexivity.
  - rewrite (Hl d). reflexivity.
  - rewrite (Hl M), (Hl m). reflexivity.
  - rewrite (Hl M), (Hl m), (Ha M), (Ha m). reflexivity.
  - rewrite (Ha b). reflexivity.
  - rewrite !(Hi lv lv' _ (fupds a' [(M, 0); (m, 0)])) by auto using fupds_ext. reflexivity.
  - replace (map (il lv _) ds) with (map (il lv' (fupds a' (map (fun x => (x, 0)) ds))) ds); [reflexivity|].
    apply map_ext. intros x. apply Hi; [apply eqf_sym; exact Hv|apply fupds_ext, eqf_sym, Ha].
Qed.

Lemma ilen_ext s : ilx (ilen s).
Proof.
  induction s as [c|d ts IH|d t IH|v t IH|ts IH] using struct_ind'; intros l l' a a' q Hl Ha; cbn [ilen].
  - reflexivity.
  - rewrite (Ha d). rewrite !nthz_map. destruct (nthz ts (a' d)) as [t|] eqn:E; [|reflexivity]. simpl.
    eapply Forall_nthz in IH; [|exact E]. rewrite (IH l l' a a' q Hl Ha). reflexivity.
  - rewrite (Hl d). rewrite (IH (fupd l d None) (fupd l' d None) a a' q) by auto using fupd_ext. reflexivity.
  - apply view_ilen_ext; auto.
  - replace (map (fun t => (signature t, ilen t l a q)) ts) with (map (fun t => (signature t, ilen t l' a' q)) ts); [reflexivity|].
    apply map_ext_in. intros t Ht. rewrite Forall_forall in IH. f_equal. symmetry. apply IH; auto.
Qed.

Lemma isize_ext s l l' : eqf l l' -> isize s l = isize s l'.
Proof.
  revert l l'. induction s as [c|d ts IH|d t IH|v t IH|ts IH] using struct_ind'; intros l l' Hl; cbn [isize]; auto.
  - f_equal. apply map_ext_in. intros t Ht. rewrite Forall_forall in IH. f_equal. apply IH; auto.
  - rewrite (Hl d), (IH (fupd l d None) (fupd l' d None)) by auto using fupd_ext. reflexivity.
  - apply IH, view_lenv_ext, Hl.
Qed.

Lemma ioff_ext s l l' a a' : eqf l l' -> eqf a a' -> ioff s l a = ioff s l' a'.
Proof.
  revert l l' a a'. induction s as [c|d ts IH|d t IH|v t IH|ts IH] using struct_ind'; intros l l' a a' Hl Ha; cbn [ioff]; auto.
  - rewrite (Ha d), !nthz_map. f_equal.
    + f_equal. apply map_ext. intros t. rewrite (isize_ext t l l' Hl). reflexivity.
    + destruct (nthz ts (a' d)) as [t|] eqn:E; [|reflexivity]. simpl. eapply Forall_nthz in IH; [|exact E]. auto.
  - rewrite (Ha d), (isize_ext t _ (fupd l' d None)), (IH _ (fupd l' d None) _ a') by auto using fupd_ext. reflexivity.
  - apply IH; [apply view_lenv_ext, Hl|apply view_asg_ext; auto using ilen_ext].
Qed.

Lemma leaf_ext s l l' a a' : eqf l l' -> eqf a a' -> leaf s l a = leaf s l' a'.
Proof.
  revert l l' a a'. induction s as [c|d ts IH|d t IH|v t IH|ts IH] using struct_ind'; intros l l' a a' Hl Ha; cbn [leaf]; auto.
  - rewrite (Ha d), !nthz_map. destruct (nthz ts (a' d)) as [t|] eqn:E; [|reflexivity]. simpl. eapply Forall_nthz in IH; [|exact E]. auto.
  - apply IH; auto using fupd_ext.
  - apply IH; [apply view_lenv_ext, Hl|apply view_asg_ext; auto using ilen_ext].
Qed.

Lemma spath_eqf s a a' : eqf a a' -> spath s a = spath s a'.
Proof. intros H. apply spath_ext_accept. intros. apply H. Qed.

Lemma plen_ext s l l' a a' d : eqf l l' -> eqf a a' -> plen s l a d = plen s l' a' d.
Proof.
  intros Hl Ha. unfold plen. destruct (signature s) as [sg|]; [|reflexivity]. rewrite (spath_eqf sg a a' Ha).
  rewrite (ilen_ext s l l' a a' d Hl Ha). reflexivity.
Qed.

Lemma view_good_ext v L L' l l' : (forall d, L d = L' d) -> eqf l l' -> view_good v L l -> view_good v L' l'.
Proof.
  intros HL Hl. destruct v as [d|d i|d n|d sh|d sh n|d sh e|d sh r|d|d M m|d M m pd|d b M m ml|M m d|sl gl d ds|ds|d|ps|xa xb d];
    simpl; rewrite ?HL; auto.
  - rewrite (Hl d). auto.
  - rewrite (Hl M), (Hl m). auto.
  - rewrite (Hl M), (Hl m). auto.
  - rewrite (omap_ext_in L L'); auto.
Qed.

Lemma good_ext s l l' a a' : eqf l l' -> eqf a a' -> good s l a -> good s l' a'.
Proof.
  revert l l' a a'. induction s as [c|d ts IH|d t IH|v t IH|ts IH] using struct_ind'; intros l l' a a' Hl Ha; cbn [good]; auto.
  - rewrite (Ha d), !nthz_map. destruct (nthz ts (a' d)) as [t|] eqn:E; [|auto]. simpl. eapply Forall_nthz in IH; [|exact E]. apply IH; auto.
  - apply IH; auto using fupd_ext.
  - pose proof (view_lenv_ext v _ _ Hl) as Hv. pose proof (view_asg_ext v (ilen t) _ _ _ _ (ilen_ext t) Hl Ha) as Hva.
    intros (H1 & H2 & H3). split; [|split].
    + eapply view_good_ext; [|exact Hl|exact H1]. intros d. apply plen_ext; auto.
    + eapply IH; [| |exact H2]; auto.
    + destruct v; auto. eapply IH; [| |exact H3]; auto.
  - intros [H1 H2]. split.
    + clear H2. induction IH as [|t ts Ht _ IHl]; [exact I|]. simpl in H1 |- *. split; [eapply Ht; [| |apply H1]; auto|].
      apply IHl. apply H1.
    + revert H2. apply Forall_impl. intros t H q. specialize (H q).
      rewrite (plen_ext (Union ts) l l' a a' q Hl Ha), (plen_ext t l l' a a' q Hl Ha) in H. exact H.
Qed.

Lemma lenok_ext s l l' : eqf l l' -> lenok s l -> lenok s l'.
Proof.
  revert l l'. induction s as [c|d ts IH|d t IH|v t IH|ts IH] using struct_ind'; intros l l' Hl; cbn [lenok]; auto.
  - rewrite !lenok_all. rewrite !Forall_forall in *. intros H t Ht. eapply IH; eauto.
  - apply IH; auto using fupd_ext.
  - intros [H1 H2]. split; [destruct v; auto; rewrite <- (Hl d); exact H1|]. eapply IH; [|exact H2]. apply view_lenv_ext, Hl.
  - rewrite !lenok_all. rewrite !Forall_forall in *. intros H t Ht. eapply IH; eauto.
Qed.
