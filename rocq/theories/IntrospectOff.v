(** * Offsets are affine along a dimension; [offset_along] *)

From Verif Require Export IntrospectFacts.

(** ** The coefficient *)

Fixpoint kf (s : struct) (l : lenv) (a : asg) (q : dim) : Z :=
  match s with
  | Scalar _ | Union _ => 0
  | Tuple d ts => match nthz (map (fun t => kf t l a q) ts) (a d) with Some k => k | None => 0 end
  | Vector d t => if q =? d then isize t (fupd l d None) else kf t (fupd l d None) a q
  | View v t => match vnext v q with
                | None => 0
                | Some q' => vcoef v t l a q * kf t (view_lenv v l) (view_asg v (ilen t) l a) q' end
  end.

Section One.
  Variables (v : view) (t : struct) (s0 sg : sig) (l : lenv) (a a2 : asg) (p' p : path) (q : dim).
  Hypothesis Ht : uswf t = true.
  Hypothesis Hw : view_swf v t = true.
  Hypothesis E0 : signature t = Some s0.
  Hypothesis Ev : view_sig v s0 = Some sg.
  Hypothesis Ep' : spath s0 (view_asg v (ilen t) l a) = Some p'.
  Hypothesis R : prel v p' p.
  Hypothesis Hnd : NoDup (map fst p').
  Hypothesis Hq : In (q, None) p.
  Hypothesis Hst : steady_view q v t = true.
  Hypothesis Hd : differ_at q p a a2.

  Lemma vcoef_local : vnext v q <> None -> vcoef v t l a2 q = vcoef v t l a q.
  Proof.
    intros Hn. pose proof (len_below v t s0 sg l a a2 p' p q Ht Hw E0 Ev Ep' R Hnd Hq Hst Hd) as Hlb. pose proof Hw as Hw'. unfold view_swf in Hw'. rewrite E0 in Hw'.
    destruct v as [d|d i|d n|d st|d st len|d st en|d st sr|d|d M m|d M m pd|d b M m ml|M m d|sl gl d ds|ds|d|ps|xa xb d];
      cbn [vcoef vnext steady_view] in *; try reflexivity.
    - destruct (Z.eqb_spec q M) as [->|]; [|reflexivity]. f_equal. apply negb_true_iff, mem_false in Hw', Hst. apply Hlb; auto.
      destruct R as [-> Hfun]. apply in_pm in Hq. cbn [view_sig] in Ev. destruct ((M =? m) || _ || _) eqn:Eb in Ev; [discriminate|].
      rewrite !orb_false_iff in Eb. destruct Eb as [[HMm HM] Hm]. destruct Hq as [[Hq' Hne]|(k & Hk & HE)].
      + cbn [fst] in Hne. rewrite (spath_accept' _ _ _ _ _ Ep' Hq') in HM. destruct (Z.eqb_spec M d); [contradiction|discriminate].
      + pose proof (Hfun _ Hk) as ->. exact Hk.
    - destruct (Z.eqb_spec q pd) as [->|Hqp]; [congruence|]. cbn [orb] in Hst.
      destruct (Z.eqb_spec q M) as [->|]; [|reflexivity]. f_equal. apply negb_true_iff, mem_false in Hw', Hst. apply Hlb; auto.
      destruct R as [-> Hfun]. apply in_pm in Hq. cbn [view_sig] in Ev. destruct ((M =? m) || _ || _ || _ || _ || _) eqn:Eb in Ev; [discriminate|].
      rewrite !orb_false_iff in Eb. destruct Eb as [[[[[HMm HMp] Hmp] HM] Hm] Hp]. destruct Hq as [[Hq' Hne]|(k & Hk & HE)].
      + cbn [fst] in Hne. rewrite (spath_accept' _ _ _ _ _ Ep' Hq') in HM. destruct (Z.eqb_spec M d); [contradiction|discriminate].
      + pose proof (Hfun _ Hk) as ->. exact Hk.
    - destruct (Z.eqb_spec q M) as [->|]; [|reflexivity]. rewrite (Hd b); [reflexivity| |].
      + destruct R as [-> Hfun]. apply in_pm in Hq. cbn [view_sig] in Ev. destruct ((b =? M) || _ || _ || _ || _ || _) eqn:Eb in Ev; [discriminate|].
        rewrite !orb_false_iff in Eb. destruct Eb as [[[[[HbM Hbm] HMm] HM] Hm] Hb]. destruct Hq as [[Hq' Hne]|(k & Hk & HE)].
        * cbn [fst] in Hne. rewrite (spath_accept' _ _ _ _ _ Ep' Hq') in HM. destruct (Z.eqb_spec M d); [contradiction|discriminate].
        * pose proof (Hfun _ Hk) as ->. eapply pm_new; [exact Hk|]. simpl. tauto.
      + cbn [view_sig] in Ev. destruct ((b =? M) || _ || _ || _ || _ || _) eqn:Eb in Ev; [discriminate|].
        rewrite !orb_false_iff in Eb. lia.
  Qed.
End One.

Lemma kf_local s : uswf s = true -> forall l a a2 sg p q, signature s = Some sg -> spath sg a = Some p -> In (q, None) p ->
  steady q s = true -> differ_at q p a a2 -> kf s l a2 q = kf s l a q.
Proof.
  induction s as [c|d ts IH|d t IH|v t IH|ts IH] using struct_ind'; intros Hw l a a2 sg p q Es Ep Hq Hst Hd; cbn [kf].
  - reflexivity.
  - destruct (signature_Tuple_inv _ _ _ Es) as (ss & F & Hx & ->). simpl in Hw. apply andb_true_iff in Hw. destruct Hw as [_ Hw].
    rewrite spath_dep in Ep. destruct (nthz ss (a d)) as [r|] eqn:Er; [|discriminate].
    destruct (spath r a) as [pr|] eqn:Epr; [|discriminate]. injection Ep as <-.
    pose proof (Forall2_nthz _ _ _ (a d) F) as Ht. rewrite Er in Ht. destruct (nthz ts (a d)) as [t|] eqn:Et; [|contradiction].
    destruct Hq as [Hq|Hq]; [discriminate|]. pose proof (nthz_In _ _ _ Et) as Hin.
    rewrite Forall_forall in IH. rewrite forallb_forall in Hw. cbn [steady] in Hst. rewrite forallb_forall in Hst.
    assert (Hqd : d <> q).
    { intros ->. rewrite <- not_true_iff_false in Hx. apply Hx, existsb_exists. exists r. split; [exact (nthz_In _ _ _ Er)|exact (spath_accept' _ _ _ _ _ Epr Hq)]. }
    rewrite (Hd d) by (try (left; reflexivity); assumption). rewrite !nthz_map, Et. cbn [option_map].
    apply (IH t Hin (Hw t Hin) l a a2 r pr q Ht Epr Hq (Hst t Hin)). intros x Hx'. apply Hd. right. exact Hx'.
  - destruct (signature_Vector_inv _ _ _ Es) as (s0 & E0 & Hdd & ->). simpl in Hw. cbn [spath] in Ep.
    destruct (spath s0 a) as [pr|] eqn:Epr; [|discriminate]. injection Ep as <-. cbn [steady] in Hst.
    destruct (Z.eqb_spec q d) as [->|Hne]; [reflexivity|]. destruct Hq as [Hq|Hq]; [congruence|].
    apply (IH Hw _ a a2 s0 pr q E0 Epr Hq Hst). intros x Hx. apply Hd. right. exact Hx.
  - destruct (uview_down _ _ _ _ _ l Hw Es Ep) as (s0 & p' & E0 & Ev & Hsn & Ep' & R & Hnd').
    destruct (uswf_view _ _ Hw) as [Hv Ht]. destruct (steady_down _ _ _ Hst) as [Hs1 Hs2].
    pose proof (view_step v t s0 sg l a a2 p' p q Ht Hv E0 Ev Ep' R Hnd' Hq Hs1 Hd) as Hstep.
    pose proof (vcoef_local v t s0 sg l a a2 p' p q Ht Hv E0 Ev Ep' R Hnd' Hq Hs1 Hd) as Hc.
    destruct (vnext v q) as [q'|]; [|reflexivity]. destruct Hstep as (Hq' & Hd' & _). rewrite Hc by discriminate. f_equal.
    apply (IH Ht _ _ _ s0 p' q' E0 Ep' Hq' Hs2). exact Hd'.
  - reflexivity.
Qed.

(** A function of the assignment is affine along [q], with the coefficient [kf]. *)
Definition affine (s : struct) (f : lenv -> asg -> dim -> Z) : Prop := forall l a a2 sg p q,
  signature s = Some sg -> spath sg a = Some p -> In (q, None) p -> steady q s = true -> differ_at q p a a2 ->
  eqW (f l a2 q - f l a q) ((a2 q - a q) * kf s l a q).

Theorem ioff_affine s : uswf s = true -> affine s (fun l a _ => ioff s l a).
Proof.
  unfold affine. induction s as [c|d ts IH|d t IH|v t IH|ts IH] using struct_ind'; intros Hw l a a2 sg p q Es Ep Hq Hst Hd; cbn [ioff kf].
  - apply eqW_eq. lia.
  - destruct (signature_Tuple_inv _ _ _ Es) as (ss & F & Hx & ->). simpl in Hw. apply andb_true_iff in Hw. destruct Hw as [_ Hw].
    rewrite spath_dep in Ep. destruct (nthz ss (a d)) as [r|] eqn:Er; [|discriminate].
    destruct (spath r a) as [pr|] eqn:Epr; [|discriminate]. injection Ep as <-.
    pose proof (Forall2_nthz _ _ _ (a d) F) as Ht. rewrite Er in Ht. destruct (nthz ts (a d)) as [t|] eqn:Et; [|contradiction].
    destruct Hq as [Hq|Hq]; [discriminate|]. pose proof (nthz_In _ _ _ Et) as Hin.
    rewrite Forall_forall in IH. rewrite forallb_forall in Hw. cbn [steady] in Hst. rewrite forallb_forall in Hst.
    assert (Hqd : d <> q).
    { intros ->. rewrite <- not_true_iff_false in Hx. apply Hx, existsb_exists. exists r. split; [exact (nthz_In _ _ _ Er)|exact (spath_accept' _ _ _ _ _ Epr Hq)]. }
    rewrite (Hd d) by (try (left; reflexivity); assumption). rewrite !nthz_map, Et. cbn [option_map].
    rewrite <- (IH t Hin (Hw t Hin) l a a2 r pr q Ht Epr Hq (Hst t Hin)); [apply eqW_eq; lia|]. intros x Hx'. apply Hd. right. exact Hx'.
  - destruct (signature_Vector_inv _ _ _ Es) as (s0 & E0 & Hdd & ->). simpl in Hw. cbn [spath] in Ep.
    destruct (spath s0 a) as [pr|] eqn:Epr; [|discriminate]. injection Ep as <-. cbn [steady] in Hst.
    assert (Hdp : forall x, In x (map fst pr) -> x <> d).
    { intros x Hx ->. destruct (fst_in _ _ Hx) as [k Hk]. rewrite (spath_accept' _ _ _ _ _ Epr Hk) in Hdd. discriminate. }
    destruct (Z.eqb_spec q d) as [->|Hne].
    + rewrite (ioff_local t Hw (fupd l d None) a a2 s0 pr E0 Epr); [apply eqW_eq; ring|]. intros x Hx. apply Hd; [right; exact Hx|apply Hdp, Hx].
    + destruct Hq as [Hq|Hq]; [congruence|]. rewrite (Hd d) by (try (left; reflexivity); congruence).
      rewrite <- (IH Hw (fupd l d None) a a2 s0 pr q E0 Epr Hq Hst); [apply eqW_eq; lia|]. intros x Hx. apply Hd. right. exact Hx.
  - destruct (uview_down _ _ _ _ _ l Hw Es Ep) as (s0 & p' & E0 & Ev & Hsn & Ep' & R & Hnd').
    destruct (uswf_view _ _ Hw) as [Hv Ht]. destruct (steady_down _ _ _ Hst) as [Hs1 Hs2].
    pose proof (view_step v t s0 sg l a a2 p' p q Ht Hv E0 Ev Ep' R Hnd' Hq Hs1 Hd) as Hstep.
    destruct (vnext v q) as [q'|].
    + destruct Hstep as (Hq' & Hd' & Hc). rewrite (IH Ht _ _ _ s0 p' q' E0 Ep' Hq' Hs2 Hd'), Hc. apply eqW_eq. ring.
    + rewrite (ioff_local t Ht _ _ _ s0 p' E0 Ep' Hstep). apply eqW_eq. lia.
  - apply eqW_eq. lia.
Qed.

(** ** The integer reading of [offset_along] *)

Definition zero (ds : list dim) (a : asg) : asg := fun x => if mem x ds then 0 else a x.

Fixpoint iofa (s : struct) (l : lenv) (a : asg) (q : dim) : Z :=
  match s with
  | Scalar _ | Union _ => 0
  | Tuple d ts => match nthz (map (fun t => iofa t l a q) ts) (a d) with Some k => k | None => 0 end
  | Vector d t => if q =? d then a d * isize t (fupd l d None) else iofa t (fupd l d None) a q
  | View v t =>
      let at_ ds q' := iofa t (view_lenv v l) (view_asg v (ilen t) l (zero ds a)) q' in
      let sub q' := iofa t (view_lenv v l) (view_asg v (ilen t) l a) q' in
      match v with
      | VBcast d => if q =? d then 0 else sub q
      | VRename ps => sub (rename_in ps q)
      | VBlocks d M m | VBlocksSta d _ M m _ | VBlocksDyn d M m _ =>
          if q =? M then at_ [m] d - at_ [M; m] d
          else if q =? m then at_ [M] d - at_ [M; m] d
          else if match v with VBlocksDyn _ _ _ p => q =? p | _ => false end then 0 else sub q
      | _ => sub q
      end
  end.

Lemma zero_same ds (p : path) a a2 : (forall x, In x (map fst p) -> a2 x = a x) -> forall x, In x (map fst p) -> zero ds a2 x = zero ds a x.
Proof. intros H x Hx. unfold zero. destruct (mem x ds); auto. Qed.

Definition blk (v : view) : option (dim * dim * dim) :=
  match v with VBlocks d M m | VBlocksDyn d M m _ | VBlocksSta d _ M m _ => Some (d, M, m) | _ => None end.

Lemma iofa_blocks v d M m t l a q : blk v = Some (d, M, m) -> iofa (View v t) l a q =
  let at_ ds q' := iofa t (view_lenv v l) (view_asg v (ilen t) l (zero ds a)) q' in
  if q =? M then at_ [m] d - at_ [M; m] d else if q =? m then at_ [M] d - at_ [M; m] d
  else match vnext v q with None => 0 | Some q' => iofa t (view_lenv v l) (view_asg v (ilen t) l a) q' end.
Proof.
  destruct v; cbn [blk]; intros E; try discriminate; inv E; cbn [iofa vnext]; destruct (q =? M); try reflexivity; destruct (q =? m); try reflexivity;
    cbn [orb]; try reflexivity. destruct (q =? _); reflexivity.
Qed.

Lemma iofa_other v t l a q : blk v = None -> iofa (View v t) l a q =
  match vnext v q with None => 0 | Some q' => iofa t (view_lenv v l) (view_asg v (ilen t) l a) q' end.
Proof. destruct v; cbn [blk]; intros E; try discriminate; cbn [iofa vnext]; try reflexivity. destruct (q =? _); reflexivity. Qed.

Lemma blk_asg' v d M m t l a x : blk v = Some (d, M, m) -> x <> d -> view_asg v (ilen t) l a x = a x.
Proof. destruct v; cbn [blk]; intros Hb H; try discriminate; injection Hb as -> -> ->; cbn [view_asg]; apply fupd_neq, H. Qed.

Lemma blk_next v d M m s0 sg q : blk v = Some (d, M, m) -> view_sig v s0 = Some sg -> q = M \/ q = m -> vnext v q = Some d.
Proof.
  destruct v; cbn [blk vnext view_sig]; intros Hb Ev Hq; try discriminate; injection Hb as -> -> ->;
    replace ((q =? M) || (q =? m)) with true by lia; try reflexivity.
  destruct (_ || _) eqn:Eb in Ev; [discriminate|]. match goal with |- context [q =? ?x] => replace (q =? x) with false by lia end. reflexivity.
Qed.

(** Facts about the two dimensions of a view that makes blocks. *)
Section Blk.
  Variables (v : view) (d M m : dim) (t : struct) (s0 sg : sig) (l : lenv) (a : asg) (p' p : path).
  Hypothesis Hb : blk v = Some (d, M, m).
  Hypothesis Ht : uswf t = true.
  Hypothesis Hw : view_swf v t = true.
  Hypothesis E0 : signature t = Some s0.
  Hypothesis Ev : view_sig v s0 = Some sg.
  Hypothesis Ep : spath sg a = Some p.
  Hypothesis Ep' : spath s0 (view_asg v (ilen t) l a) = Some p'.
  Hypothesis R : prel v p' p.
  Hypothesis Hnd : NoDup (map fst p').

  Lemma blk_ne : M <> m.
  Proof using All.
    destruct v; cbn [blk] in Hb; try discriminate; injection Hb as <- <- <-; cbn [view_sig] in Ev; destruct (_ || _) eqn:Eb in Ev; try discriminate;
      rewrite !orb_false_iff in Eb; lia.
  Qed.
  Lemma blk_fresh x : In x (map fst p') -> x <> d -> x <> M /\ x <> m.
  Proof using All.
    intros Hx Hxd. destruct (fst_in _ _ Hx) as [k Hk]. pose proof (spath_accept' _ _ _ _ _ Ep' Hk) as Ha.
    destruct v; cbn [blk] in Hb; try discriminate; injection Hb as <- <- <-; cbn [view_sig] in Ev; destruct (_ || _) eqn:Eb in Ev; try discriminate;
      rewrite !orb_false_iff in Eb; split; intros ->; rewrite Ha in Eb; lia.
  Qed.
  Lemma blk_path q : In (q, None) p -> q = M \/ q = m -> In (d, None) p' /\ In (M, None) p /\ In (m, None) p.
  Proof using All.
    intros Hq Hqm. pose proof blk_fresh as Hf.
    assert (H : In (d, None) p' /\ (forall k, In (d, k) p' -> k = None) /\ (forall e, e = M \/ e = m -> In (d, None) p' -> In (e, None) p)).
    { destruct v; cbn [blk] in Hb; try discriminate; injection Hb as -> -> ->; cbn [prel] in R; destruct R as [-> Hfun];
        (apply in_pm in Hq; cbn [fst] in Hq;
         split; [destruct Hq as [[Hq1 Hq2]|(k & Hk & _)]; [destruct (Hf q (in_fst _ _ _ Hq1) Hq2); tauto|rewrite (Hfun _ Hk) in Hk; exact Hk]|];
         split; [exact Hfun|intros e He Hin; apply in_pm; right; exists None; split; [exact Hin|]; simpl; destruct He as [-> | ->]; tauto]). }
    destruct H as (H1 & H2 & H3). auto.
  Qed.
End Blk.

Section Zeroed.
  Variables (v : view) (d M m : dim) (t : struct) (s0 sg : sig) (l : lenv) (a : asg) (p' p : path) (z : list dim) (q : dim).
  Hypothesis Hb : blk v = Some (d, M, m).
  Hypothesis Ht : uswf t = true.
  Hypothesis Hw : view_swf v t = true.
  Hypothesis E0 : signature t = Some s0.
  Hypothesis Ev : view_sig v s0 = Some sg.
  Hypothesis Ep : spath sg a = Some p.
  Hypothesis Ep' : spath s0 (view_asg v (ilen t) l a) = Some p'.
  Hypothesis R : prel v p' p.
  Hypothesis Hnd : NoDup (map fst p').
  Hypothesis Hndp : NoDup (map fst p).
  Hypothesis Hq : In (q, None) p.
  Hypothesis HqM : q = M \/ q = m.
  Hypothesis Hz : incl z [M; m].

  Lemma zero_out x : x <> M -> x <> m -> zero z a x = a x.
  Proof using All.
    intros H1 H2. unfold zero. destruct (mem x z) eqn:E; [|reflexivity]. apply mem_In in E. specialize (Hz _ E). simpl in Hz. intuition congruence.
  Qed.
  Lemma zero_path : spath sg (zero z a) = Some p.
  Proof using All.
    eapply spath_ext; [exact Ep|]. intros e n He. destruct (blk_path v d M m t s0 sg l a p' p Hb Ht Hw E0 Ev Ep Ep' R Hnd q Hq HqM) as (_ & HM & Hm).
    apply zero_out; intros ->; [pose proof (nodup_fst_eq _ _ _ _ Hndp He HM)|pose proof (nodup_fst_eq _ _ _ _ Hndp He Hm)]; discriminate.
  Qed.
  Lemma zero_below : differ_at d p' (view_asg v (ilen t) l a) (view_asg v (ilen t) l (zero z a)).
  Proof using All.
    intros x Hx Hxd. rewrite !(blk_asg' v d M m) by assumption.
    destruct (blk_fresh v d M m t s0 sg l a p' p Hb Ht Hw E0 Ev Ep Ep' R Hnd x Hx Hxd). apply zero_out; assumption.
  Qed.
  Lemma zero_path_below : spath s0 (view_asg v (ilen t) l (zero z a)) = Some p'.
  Proof using All.
    eapply spath_ext; [exact Ep'|]. intros e n He. apply zero_below; [eapply in_fst; eauto|].
    destruct (blk_path v d M m t s0 sg l a p' p Hb Ht Hw E0 Ev Ep Ep' R Hnd q Hq HqM) as (Hd & _ & _).
    intros ->. pose proof (nodup_fst_eq _ _ _ _ Hnd He Hd). discriminate.
  Qed.
  Lemma zero_coef : steady_view q v t = true -> vcoef v t l (zero z a) q = vcoef v t l a q.
  Proof using All.
    intros Hst. destruct (blk_path v d M m t s0 sg l a p' p Hb Ht Hw E0 Ev Ep Ep' R Hnd q Hq HqM) as (Hd & _ & _).
    pose proof (blk_fresh v d M m t s0 sg l a p' p Hb Ht Hw E0 Ev Ep Ep' R Hnd) as Hf. pose proof zero_out as Hzo.
    pose proof Hw as Hw'. unfold view_swf in Hw'. rewrite E0 in Hw'.
    assert (Hdd : ~ In d (ldeps t d)).
    { destruct v; cbn [blk] in Hb; try discriminate; injection Hb as -> -> ->; rewrite ?andb_true_iff in Hw'; apply mem_false; rewrite <- negb_true_iff; tauto. }
    assert (Hlen : forall l', ilen t l' (zero z a) d = ilen t l' a d).
    { intros l'. apply (uswf_loc t Ht _ s0 a (zero z a) p' d E0); [|exact Hd|].
      - eapply spath_ext; [exact Ep'|]. intros e n He. symmetry. apply (blk_asg' v d M m); [exact Hb|].
        intros ->. pose proof (nodup_fst_eq _ _ _ _ Hnd He Hd). discriminate.
      - intros x Hx Hxp. destruct (Hf x Hxp ltac:(congruence)). apply Hzo; assumption. }
    destruct v; cbn [blk] in Hb; try discriminate; injection Hb as -> -> ->; cbn [vcoef]; rewrite ?Hlen; try reflexivity.
    rewrite Hzo; [reflexivity| |]; intros ->; cbn [view_sig] in Ev; destruct (_ || _) eqn:Eb in Ev; try discriminate; lia.
  Qed.
End Zeroed.

Lemma iofa_local s : uswf s = true -> forall l a a2 sg p q, signature s = Some sg -> spath sg a = Some p ->
  (forall x, In x (map fst p) -> a2 x = a x) -> In (q, None) p -> steady q s = true -> iofa s l a2 q = iofa s l a q.
Proof.
  induction s as [c|d ts IH|d t IH|v t IH|ts IH] using struct_ind'; intros Hw l a a2 sg p q Es Ep H Hq Hst.
  - reflexivity.
  - cbn [iofa]. destruct (signature_Tuple_inv _ _ _ Es) as (ss & F & Hx & ->). simpl in Hw. apply andb_true_iff in Hw. destruct Hw as [_ Hw].
    rewrite spath_dep in Ep. destruct (nthz ss (a d)) as [r|] eqn:Er; [|discriminate].
    destruct (spath r a) as [pr|] eqn:Epr; [|discriminate]. injection Ep as <-.
    pose proof (Forall2_nthz _ _ _ (a d) F) as Ht. rewrite Er in Ht. destruct (nthz ts (a d)) as [t|] eqn:Et; [|contradiction].
    rewrite (H d) by (left; reflexivity). rewrite !nthz_map, Et. cbn [option_map]. destruct Hq as [Hq|Hq]; [discriminate|].
    rewrite Forall_forall in IH. rewrite forallb_forall in Hw. pose proof (nthz_In _ _ _ Et) as Hin.
    cbn [steady] in Hst. rewrite forallb_forall in Hst.
    apply (IH t Hin (Hw t Hin) l a a2 r pr q Ht Epr); [|exact Hq|apply Hst, Hin]. intros x Hx'. apply H. right. exact Hx'.
  - cbn [iofa]. destruct (signature_Vector_inv _ _ _ Es) as (s0 & E0 & Hd & ->). simpl in Hw. cbn [spath] in Ep.
    destruct (spath s0 a) as [pr|] eqn:Epr; [|discriminate]. injection Ep as <-.
    rewrite (H d) by (left; reflexivity). cbn [steady] in Hst. destruct (Z.eqb_spec q d); [reflexivity|]. destruct Hq as [Hq|Hq]; [congruence|].
    apply (IH Hw _ a a2 s0 pr q E0 Epr); [|exact Hq|exact Hst]. intros x Hx. apply H. right. exact Hx.
  - destruct (uview_down _ _ _ _ _ l Hw Es Ep) as (s0 & p' & E0 & Ev & Hsn & Ep' & R & Hnd').
    destruct (uswf_view _ _ Hw) as [Hv Ht].
    pose proof (spath_nodup _ _ _ (uswf_snodup _ _ Hw Es) Ep) as Hnd. destruct (steady_down _ _ _ Hst) as [Hs1 Hs2].
    pose proof (view_step v t s0 sg l a a2 p' p q Ht Hv E0 Ev Ep' R Hnd' Hq Hs1 (fun x Hx _ => H x Hx)) as Hstep.
    assert (Hsub : match vnext v q with None => True | Some q' =>
      iofa t (view_lenv v l) (view_asg v (ilen t) l a2) q' = iofa t (view_lenv v l) (view_asg v (ilen t) l a) q' end).
    { destruct (vnext v q) as [q'|]; [|exact I]. destruct Hstep as (Hq' & _ & _). apply (IH Ht _ _ _ s0 p' q' E0 Ep'); [|exact Hq'|exact Hs2].
      intros x Hx. apply (adep_ok v t s0 sg l a p' p (uswf_loc t Ht) Hv E0 Ev Ep' R Hnd' a2 x Hx). intros y _. apply H. }
    destruct (blk v) as [[[d M] m]|] eqn:Hb.
    + rewrite !(iofa_blocks v d M m) by exact Hb. cbn zeta.
      assert (Hz : forall z, q = M \/ q = m -> incl z [M; m] -> iofa t (view_lenv v l) (view_asg v (ilen t) l (zero z a2)) d =
        iofa t (view_lenv v l) (view_asg v (ilen t) l (zero z a)) d).
      { intros z HqM Hz. pose proof (zero_path_below v d M m t s0 sg l a p' p z q Hb Ht Hv E0 Ev Ep Ep' R Hnd' Hnd Hq HqM Hz) as Hp.
        destruct (blk_path v d M m t s0 sg l a p' p Hb Ht Hv E0 Ev Ep Ep' R Hnd' q Hq HqM) as (Hd & _ & _).
        apply (IH Ht _ _ _ s0 p' d E0 Hp); [|exact Hd|].
        - intros x Hx. apply (adep_ok v t s0 sg l (zero z a) p' p (uswf_loc t Ht) Hv E0 Ev Hp R Hnd' (zero z a2) x Hx). intros y _. apply (zero_same z p a a2 H).
        - rewrite (blk_next v d M m s0 sg q Hb Ev HqM) in Hs2. exact Hs2. }
      destruct (Z.eqb_spec q M) as [E|]; [rewrite !Hz; auto; intros x; simpl; tauto|].
      destruct (Z.eqb_spec q m) as [E|]; [rewrite !Hz; auto; intros x; simpl; tauto|].
      destruct (vnext v q); [exact Hsub|reflexivity].
    + rewrite !iofa_other by exact Hb. destruct (vnext v q); [exact Hsub|reflexivity].
  - reflexivity.
Qed.

Theorem iofa_affine s : uswf s = true -> affine s (iofa s).
Proof.
  unfold affine. induction s as [c|d ts IH|d t IH|v t IH|ts IH] using struct_ind'; intros Hw l a a2 sg p q Es Ep Hq Hst Hd.
  - apply eqW_eq. cbn [iofa kf]. lia.
  - cbn [iofa kf]. destruct (signature_Tuple_inv _ _ _ Es) as (ss & F & Hx & ->). simpl in Hw. apply andb_true_iff in Hw. destruct Hw as [_ Hw].
    rewrite spath_dep in Ep. destruct (nthz ss (a d)) as [r|] eqn:Er; [|discriminate].
    destruct (spath r a) as [pr|] eqn:Epr; [|discriminate]. injection Ep as <-.
    pose proof (Forall2_nthz _ _ _ (a d) F) as Ht. rewrite Er in Ht. destruct (nthz ts (a d)) as [t|] eqn:Et; [|contradiction].
    destruct Hq as [Hq|Hq]; [discriminate|]. pose proof (nthz_In _ _ _ Et) as Hin.
    rewrite Forall_forall in IH. rewrite forallb_forall in Hw. cbn [steady] in Hst. rewrite forallb_forall in Hst.
    assert (Hqd : d <> q).
    { intros ->. rewrite <- not_true_iff_false in Hx. apply Hx, existsb_exists. exists r. split; [exact (nthz_In _ _ _ Er)|exact (spath_accept' _ _ _ _ _ Epr Hq)]. }
    rewrite (Hd d) by (try (left; reflexivity); assumption). rewrite !nthz_map, Et. cbn [option_map].
    rewrite <- (IH t Hin (Hw t Hin) l a a2 r pr q Ht Epr Hq (Hst t Hin)); [apply eqW_eq; lia|]. intros x Hx'. apply Hd. right. exact Hx'.
  - cbn [iofa kf]. destruct (signature_Vector_inv _ _ _ Es) as (s0 & E0 & Hdd & ->). simpl in Hw. cbn [spath] in Ep.
    destruct (spath s0 a) as [pr|] eqn:Epr; [|discriminate]. injection Ep as <-. cbn [steady] in Hst.
    destruct (Z.eqb_spec q d) as [->|Hne]; [apply eqW_eq; ring|]. destruct Hq as [Hq|Hq]; [congruence|].
    apply (IH Hw (fupd l d None) a a2 s0 pr q E0 Epr Hq Hst). intros x Hx. apply Hd. right. exact Hx.
  - destruct (uview_down _ _ _ _ _ l Hw Es Ep) as (s0 & p' & E0 & Ev & Hsn & Ep' & R & Hnd').
    destruct (uswf_view _ _ Hw) as [Hv Ht]. destruct (steady_down _ _ _ Hst) as [Hs1 Hs2].
    pose proof (spath_nodup _ _ _ (uswf_snodup _ _ Hw Es) Ep) as Hnd.
    pose proof (view_step v t s0 sg l a a2 p' p q Ht Hv E0 Ev Ep' R Hnd' Hq Hs1 Hd) as Hstep.
    assert (Hsub : match vnext v q with None => True | Some q' =>
      eqW (iofa t (view_lenv v l) (view_asg v (ilen t) l a2) q' - iofa t (view_lenv v l) (view_asg v (ilen t) l a) q') ((a2 q - a q) * kf (View v t) l a q) end).
    { cbn [kf]. destruct (vnext v q) as [q'|]; [|exact I].
      destruct Hstep as (Hq' & Hd' & Hc). rewrite (IH Ht _ _ _ s0 p' q' E0 Ep' Hq' Hs2 Hd'), Hc. apply eqW_eq. ring. }
    assert (Hk0 : vnext v q = None -> kf (View v t) l a q = 0) by (intros Hn; cbn [kf]; rewrite Hn; reflexivity).
    destruct (blk v) as [[[d M] m]|] eqn:Hb.
    + rewrite !(iofa_blocks v d M m) by exact Hb. cbn zeta.
      assert (Hmain : forall o z, q = M \/ q = m -> incl z [M; m] -> ~ In q z -> In o [M; m] -> o <> q -> incl [M; m] (q :: z) ->
        eqW (iofa t (view_lenv v l) (view_asg v (ilen t) l (zero z a2)) d - iofa t (view_lenv v l) (view_asg v (ilen t) l (zero [M; m] a2)) d
             - (iofa t (view_lenv v l) (view_asg v (ilen t) l (zero z a)) d - iofa t (view_lenv v l) (view_asg v (ilen t) l (zero [M; m] a)) d))
            ((a2 q - a q) * kf (View v t) l a q)).
      { intros o z HqM Hz Hqz Ho Hoq Hall. pose proof (blk_next v d M m s0 sg q Hb Ev HqM) as Hn.
        destruct (blk_path v d M m t s0 sg l a p' p Hb Ht Hv E0 Ev Ep Ep' R Hnd' q Hq HqM) as (Hdp & _ & _).
        pose proof (zero_path_below v d M m t s0 sg l a p' p z q Hb Ht Hv E0 Ev Ep Ep' R Hnd' Hnd Hq HqM Hz) as Hp.
        pose proof (zero_path_below v d M m t s0 sg l a p' p [M; m] q Hb Ht Hv E0 Ev Ep Ep' R Hnd' Hnd Hq HqM (incl_refl _)) as Hp0.
        rewrite Hn in Hs2.
        assert (Hdz : forall x, In x (map fst p) -> x <> q -> zero z a2 x = zero z a x).
        { intros x Hx Hxq. unfold zero. destruct (mem x z); [reflexivity|]. apply Hd; assumption. }
        pose proof (view_step v t s0 sg l (zero z a) (zero z a2) p' p q Ht Hv E0 Ev Hp R Hnd' Hq Hs1 Hdz) as Hst1. rewrite Hn in Hst1.
        destruct Hst1 as (_ & Hst1 & Hst2).
        pose proof (IH Ht (view_lenv v l) _ _ s0 p' d E0 Hp Hdp Hs2 Hst1) as Hi.
        assert (Hi0 : iofa t (view_lenv v l) (view_asg v (ilen t) l (zero [M; m] a2)) d = iofa t (view_lenv v l) (view_asg v (ilen t) l (zero [M; m] a)) d).
        { apply (iofa_local t Ht _ _ _ s0 p' d E0 Hp0); [|exact Hdp|exact Hs2]. intros x Hx.
          apply (adep_ok v t s0 sg l (zero [M; m] a) p' p (uswf_loc t Ht) Hv E0 Ev Hp0 R Hnd' _ x Hx). intros y _ Hy.
          unfold zero. destruct (mem y [M; m]) eqn:Ey; [reflexivity|]. apply Hd; [exact Hy|]. intros ->. apply mem_false in Ey. apply Ey. simpl. intuition. }
        rewrite Hi0.
        assert (Hkl : kf t (view_lenv v l) (view_asg v (ilen t) l (zero z a)) d = kf t (view_lenv v l) (view_asg v (ilen t) l a) d).
        { apply (kf_local t Ht _ _ _ s0 p' d E0 Ep' Hdp Hs2).
          exact (zero_below v d M m t s0 sg l a p' p z q Hb Ht Hv E0 Ev Ep Ep' R Hnd' Hnd Hq HqM Hz). }
        pose proof (zero_coef v d M m t s0 sg l a p' p z q Hb Ht Hv E0 Ev Ep Ep' R Hnd' Hnd Hq HqM Hz Hs1) as Hc.
        assert (Hq0 : forall b, zero z b q = b q) by (intros b; unfold zero; apply mem_false in Hqz; rewrite Hqz; reflexivity).
        rewrite Hc, !Hq0 in Hst2. rewrite Hkl, Hst2 in Hi. cbn [kf]. rewrite Hn.
        transitivity ((a2 q - a q) * vcoef v t l a q * kf t (view_lenv v l) (view_asg v (ilen t) l a) d); [|apply eqW_eq; ring].
        rewrite <- Hi. apply eqW_eq. ring. }
      pose proof (blk_ne v d M m t s0 sg l a p' p Hb Ht Hv E0 Ev Ep Ep' R Hnd') as HMm.
      destruct (Z.eqb_spec q M) as [E|HqM].
      * apply (Hmain m [m]); [auto|intros x; simpl; tauto|simpl; intuition congruence|simpl; auto|congruence|subst; intros x; simpl; tauto].
      * destruct (Z.eqb_spec q m) as [E|Hqm].
        -- apply (Hmain M [M]); [auto|intros x; simpl; tauto|simpl; intuition congruence|simpl; auto|congruence|subst; intros x; simpl; tauto].
        -- destruct (vnext v q); [exact Hsub|]. rewrite Hk0 by reflexivity. apply eqW_eq. lia.
    + rewrite !iofa_other by exact Hb. destruct (vnext v q); [exact Hsub|]. rewrite Hk0 by reflexivity. apply eqW_eq. lia.
  - apply eqW_eq. cbn [iofa kf]. lia.
Qed.

(** ** [offset_along] computes it *)

Definition agW (v : val) (x : Z) : Prop := forall y, vz v = Some y -> eqW y x.

Lemma agW_sub a b x y : agW a x -> agW b y -> agW (vsub a b) (x - y).
Proof.
  intros Ha Hb z. rewrite vz_vsub. destruct (vz a) as [xa|] eqn:Ea; [|discriminate]. destruct (vz b) as [xb|] eqn:Eb; [|discriminate].
  intros E. inv E. rewrite eqW_u64, (Ha _ Ea), (Hb _ Eb). reflexivity.
Qed.

Lemma agW_mul a b x y : agW a x -> vz b = Some y -> agW (vmul a b) (x * y).
Proof.
  intros Ha Hb z Hz. destruct (vz a) as [xa|] eqn:Ea.
  - rewrite (vz_vmul' _ _ _ _ Ea Hb) in Hz. injection Hz as <-. rewrite eqW_u64, (Ha _ Ea). reflexivity.
  - destruct a; try discriminate Ea. cbn [vmul is_sta] in Hz. destruct (is_sta 0 b) eqn:E0; [|discriminate Hz].
    apply is_sta_vz in E0. rewrite Hb in E0. injection E0 as ->. injection Hz as <-. rewrite eqW_u64. apply eqW_eq. lia.
Qed.

Lemma agW_vagree v x : vagree v x -> agW v x.
Proof. unfold vagree, agW. intros H y E. rewrite E in H. apply eqW_eq. exact H. Qed.

Lemma agree_zeros ds st l a : agree st l a -> agree (with_ (map (fun d => (Idx d, Sta 0)) ds) st) l (zero ds a).
Proof.
  intros [H1 H2].
  assert (Hg : forall t, get t (map (fun d => (Idx d, Sta 0)) ds) = match t with Idx x => if mem x ds then Some (Sta 0) else None | _ => None end).
  { intros t. induction ds as [|e ds IH]; [destruct t; reflexivity|]. cbn [map get fst snd]. destruct t as [x|x|x]; teq; try exact IH.
    cbn [mem existsb]. unfold mem in IH |- *. destruct (Z.eqb_spec x e); cbn [existsb orb]; [reflexivity|exact IH]. }
  split; intros q; rewrite get_with, Hg; [apply H1|]. unfold zero. destruct (mem q ds); [|apply H2].
  intros v E. injection E as <-. unfold vagree. cbn [vz]. rewrite u64_small by (pose proof W_pos; lia). reflexivity.
Qed.

Lemma lendef_zeros ds st : lendef st -> lendef (with_ (map (fun d => (Idx d, Sta 0)) ds) st).
Proof.
  intros H y w. rewrite get_with.
  assert (Hg : get (Len y) (map (fun d => (Idx d, Sta 0)) ds) = None) by (induction ds as [|e ds IH]; [reflexivity|exact IH]).
  rewrite Hg. apply H.
Qed.

Lemma bind2_vsub e1 e2 w : (do x <- e1; do y <- e2; Some (vsub x y)) = Some w -> exists x y, e1 = Some x /\ e2 = Some y /\ w = vsub x y.
Proof. destruct e1 as [x|]; [|discriminate]. destruct e2 as [y|]; [|discriminate]. intros E. injection E as <-. eauto. Qed.

Lemma offset_along_blocks v d M m t q st w s0 sg : blk v = Some (d, M, m) -> view_sig v s0 = Some sg -> steady_view q v t = true ->
  match v with VBlocksSta _ b _ _ _ => q <> b | _ => True end ->
  offset_along (View v t) q st = Some w ->
  let at_ ds := do st' <- sub_state v t (with_ (map (fun d => (Idx d, Sta 0)) ds) st); offset_along t d st' in
  if q =? M then exists x y, at_ [m] = Some x /\ at_ [M; m] = Some y /\ w = vsub x y
  else if q =? m then exists x y, at_ [M] = Some x /\ at_ [M; m] = Some y /\ w = vsub x y
  else match vnext v q with None => w = Sta 0 | Some q' => (do st' <- sub_state v t st; offset_along t q' st') = Some w end.
Proof.
  intros Hb Ev Hst Hnb E at_. subst at_. cbn beta.
  destruct v; cbn [blk] in Hb; try discriminate; injection Hb as -> -> ->; cbn [offset_along] in E; apply guard_Some in E; destruct E as [_ E];
    cbn [vnext]; (destruct (q =? M); [exact (bind2_vsub _ _ _ E)|destruct (q =? m); [exact (bind2_vsub _ _ _ E)|]]); cbn [orb]; try exact E.
  - destruct (q =? _); [injection E as <-; reflexivity|exact E].
  - destruct (Z.eqb_spec q b); [contradiction|exact E].
Qed.

Lemma offset_along_other v t q st w s0 a p' p sg : blk v = None -> view_sig v s0 = Some sg -> spath s0 a = Some p' -> prel v p' p -> In (q, None) p ->
  steady_view q v t = true -> offset_along (View v t) q st = Some w ->
  match vnext v q with None => w = Sta 0 | Some q' => (do st' <- sub_state v t st; offset_along t q' st') = Some w end.
Proof.
  intros Hb Ev Ep' R Hq Hst E. destruct v; cbn [blk] in Hb; try discriminate; cbn [offset_along] in E; apply guard_Some in E; destruct E as [Eh E];
    cbn [vnext]; try exact E; cbn [steady_view] in Hst; try discriminate.
  - destruct (q =? d); [injection E as <-; reflexivity|exact E].
  - apply andb_true_iff in Hst. destruct Hst as [Hst _]. destruct (q =? d); [discriminate|exact E].
  - cbn [prel] in R. subst p. apply in_map_iff in Hq. destruct Hq as ([q' k] & Hqe & Hq'). cbn [fst snd] in Hqe. injection Hqe as <- ->.
    cbn [view_sig] in Ev. destruct (nodupb (map fst ps) && _ && _) eqn:Er in Ev; [|discriminate].
    replace (rename_hides ps (rename_dim ps q')) with false in E; [exact E|]. symmetry. unfold rename_hides.
    destruct (mem q' (map fst ps)) eqn:Em.
    + replace (mem (rename_dim ps q') (map snd ps)) with true; [apply andb_false_r|]. symmetry. apply mem_In. apply in_map_iff. exists (q', rename_dim ps q'). split; [reflexivity|]. apply rename_dim_in. apply mem_In, Em.
    + rewrite rename_dim_out by (apply mem_false, Em). rewrite Em. reflexivity.
Qed.

Theorem offset_along_spec s : swf s = true -> forall st l a sg p q w, signature s = Some sg -> spath sg a = Some p -> In (q, None) p ->
  steady q s = true -> lenok s l -> agree st l a -> lendef st -> offset_along s q st = Some w -> agW w (iofa s l a q).
Proof.
  induction s as [c|d ts IH|d t IH|v t IH|ts IH] using struct_ind'; intros Hw st l a sg p q w Es Ep Hq Hst Hlk Hag Hld E.
  - discriminate.
  - cbn [offset_along] in E. apply guard_Some in E. destruct E as [_ E]. cbn [iofa].
    destruct (signature_Tuple_inv _ _ _ Es) as (ss & F & Hx & ->). pose proof (swf_tuple _ _ Hw) as Hws.
    rewrite spath_dep in Ep. destruct (nthz ss (a d)) as [r|] eqn:Er; [|discriminate].
    destruct (spath r a) as [pr|] eqn:Epr; [|discriminate]. injection Ep as <-.
    pose proof (Forall2_nthz _ _ _ (a d) F) as Ht. rewrite Er in Ht. destruct (nthz ts (a d)) as [t|] eqn:Et; [|contradiction].
    destruct Hq as [Hq|Hq]; [discriminate|]. pose proof (nthz_In _ _ _ Et) as Hin.
    assert (Hqd : d <> q).
    { intros ->. rewrite <- not_true_iff_false in Hx. apply Hx, existsb_exists. exists r. split; [exact (nthz_In _ _ _ Er)|exact (spath_accept' _ _ _ _ _ Epr Hq)]. }
    unfold tuple_index in E. destruct (get (Idx d) st) as [vi|] eqn:Ei; [|discriminate]. destruct (vstatic vi) as [k|] eqn:Ek; [|discriminate]. cbn [obind] in E.
    assert (a d = k) as Hk.
    { pose proof (ag_idx _ _ _ Hag _ _ Ei) as Hvi. unfold vagree in Hvi. destruct vi; simpl in *; try discriminate. congruence. }
    destruct (Z.eqb_spec q d); [congruence|]. rewrite nthz_map, <- Hk, Et in E. cbn [option_map ojoin] in E. rewrite nthz_map, Et. cbn [option_map].
    rewrite Forall_forall in IH. rewrite forallb_forall in Hws. cbn [steady] in Hst. rewrite forallb_forall in Hst.
    simpl in Hlk. apply lenok_all in Hlk. eapply Forall_nthz in Hlk; [|exact Et].
    apply (IH t Hin (Hws t Hin) (remove [Idx d] st) l a r pr q w); auto using agree_remove_idx, lendef_remove_idx.
  - cbn [offset_along] in E. apply guard_Some in E. destruct E as [_ E]. cbn [iofa].
    destruct (signature_Vector_inv _ _ _ Es) as (s0 & E0 & Hdd & ->). cbn [spath] in Ep.
    destruct (spath s0 a) as [pr|] eqn:Epr; [|discriminate]. injection Ep as <-. cbn [steady] in Hst.
    destruct (Z.eqb_spec q d) as [->|Hne].
    + destruct (get (Idx d) st) as [i|] eqn:Ei; [|discriminate]. cbn [obind] in E.
      destruct (size_ t (remove [Idx d; Len d] st)) as [sz|] eqn:Ez; [|discriminate]. cbn [obind] in E. injection E as <-.
      assert (Hz : vz sz = Some (u64 (isize t (fupd l d None)))).
      { eapply (size_spec t Hw); eauto using agree_remove_both, lendef_remove_both. congruence. }
      intros y Hy. rewrite (agW_mul i sz _ _ (agW_vagree _ _ (ag_idx _ _ _ Hag _ _ Ei)) Hz y Hy), eqW_u64. reflexivity.
    + destruct Hq as [Hq|Hq]; [congruence|].
      apply (IH Hw (remove [Idx d; Len d] st) (fupd l d None) a s0 pr q w); auto using agree_remove_both, lendef_remove_both.
  - destruct (view_down _ _ _ _ _ l Hw Es Ep) as (s0 & p' & E0 & Ev & Hsn & Ep' & R & Hnd').
    destruct (swf_view _ _ Hw) as [Hv Ht]. pose proof (swf_uswf _ Ht) as Hu. destruct (steady_down _ _ _ Hst) as [Hs1 Hs2].
    pose proof (swf_path_nodup _ _ _ _ Hw Es Ep) as Hnd. assert (Hs0 : signature (View v t) <> None) by congruence.
    pose proof (view_step v t s0 sg l a a p' p q Hu Hv E0 Ev Ep' R Hnd' Hq Hs1 (fun x _ _ => eq_refl)) as Hstep.
    assert (Hsub : match vnext v q with None => True | Some q' => (do st' <- sub_state v t st; offset_along t q' st') = Some w ->
      agW w (iofa t (view_lenv v l) (view_asg v (ilen t) l a) q') end).
    { destruct (vnext v q) as [q'|]; [|exact I]. intros Ew. destruct (sub_state v t st) as [st'|] eqn:Est; [|discriminate]. cbn [obind] in Ew.
      destruct Hstep as (Hq' & _ & _).
      apply (IH Ht st' _ _ s0 p' q' w E0 Ep' Hq' Hs2 (proj2 Hlk) (sub_state_refines _ _ _ _ _ _ Hs0 Hlk Hag Est) (sub_lendef _ _ _ _ _ _ Hv Hs0 Hlk Hag Est Hld) Ew). }
    assert (Hzero : agW (Sta 0) 0).
    { intros y Hy. injection Hy as <-. apply eqW_u64. }
    destruct (blk v) as [[[d M] m]|] eqn:Hb.
    + assert (Hat : forall z x, q = M \/ q = m -> incl z [M; m] ->
        (do st' <- sub_state v t (with_ (map (fun d => (Idx d, Sta 0)) z) st); offset_along t d st') = Some x ->
        agW x (iofa t (view_lenv v l) (view_asg v (ilen t) l (zero z a)) d)).
      { intros z x HqM Hz Ex. destruct (sub_state v t _) as [st'|] eqn:Est in Ex; [|discriminate]. cbn [obind] in Ex.
        pose proof (blk_next v d M m s0 sg q Hb Ev HqM) as Hn. rewrite Hn in Hs2.
        destruct (blk_path v d M m t s0 sg l a p' p Hb Hu Hv E0 Ev Ep Ep' R Hnd' q Hq HqM) as (Hdp & _ & _).
        pose proof (zero_path_below v d M m t s0 sg l a p' p z q Hb Hu Hv E0 Ev Ep Ep' R Hnd' Hnd Hq HqM Hz) as Hp.
        pose proof (agree_zeros z _ _ _ Hag) as Hag'. pose proof (lendef_zeros z _ Hld) as Hld'.
        apply (IH Ht st' _ _ s0 p' d x E0 Hp Hdp Hs2 (proj2 Hlk) (sub_state_refines _ _ _ _ _ _ Hs0 Hlk Hag' Est) (sub_lendef _ _ _ _ _ _ Hv Hs0 Hlk Hag' Est Hld') Ex). }
      rewrite (iofa_blocks v d M m) by exact Hb. cbn zeta.
      assert (Hnb : match v with VBlocksSta _ b _ _ _ => q <> b | _ => True end).
      { destruct v; try exact I. intros ->. cbn [view_sig] in Ev. destruct (_ || _) eqn:Eb in Ev; [discriminate|].
        cbn [prel] in R. destruct R as [-> Hfun]. apply in_pm in Hq. destruct Hq as [[Hq1 Hq2]|(k & Hk & HE)].
        - cbn [fst] in Hq2. rewrite (spath_accept' _ _ _ _ _ Ep' Hq1) in Eb. lia.
        - pose proof (Hfun _ Hk) as ->. simpl in HE. destruct HE as [HE|[HE|[HE|[]]]]; injection HE; intros; try discriminate; lia. }
      pose proof (offset_along_blocks v d M m t q st w s0 sg Hb Ev Hs1 Hnb E) as HE. cbn zeta in HE.
      destruct (Z.eqb_spec q M) as [->|HqM].
      * destruct HE as (x & y & Hx & Hy & ->). apply agW_sub; eapply Hat; eauto; intros z; simpl; tauto.
      * destruct (Z.eqb_spec q m) as [->|Hqm].
        -- destruct HE as (x & y & Hx & Hy & ->). apply agW_sub; eapply Hat; eauto; intros z; simpl; tauto.
        -- destruct (vnext v q); [exact (Hsub HE)|]. subst w. exact Hzero.
    + rewrite iofa_other by exact Hb. pose proof (offset_along_other v t q st w s0 _ p' p sg Hb Ev Ep' R Hq Hs1 E) as HE.
      destruct (vnext v q); [exact (Hsub HE)|]. subst w. exact Hzero.
  - discriminate.
Qed.
