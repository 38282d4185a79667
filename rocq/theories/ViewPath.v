(** * How each view changes the dimensions along a path *)

From Verif Require Export SigFacts.

Definition path := list (dim * option Z).

(** [prel v p' p]: over a sub-structure whose path is [p'], the view has path [p]. *)
Definition prel (v : view) (p' p : path) : Prop :=
  match v with
  | VBcast d => p = (d, None) :: p'
  | VFix d _ => p = pm (fun _ => []) d p'
  | VSetLength d _ => p = p' /\ forall n, In (d, n) p' -> n = None
  | VShift d s => p = pm (fun n => [(d, option_map (fun n => u64 (n - vzd s)) n)]) d p'
  | VSlice d _ len => p = pm (fun n => [(d, option_map (fun _ => vzd len) n)]) d p'
  | VSpan d s e => p = pm (fun n => [(d, option_map (fun _ => u64 (vzd e - vzd s)) n)]) d p'
  | VStep d s r => p = pm (fun n => [(d, option_map (fun n => u64 (n + vzd r - vzd s - 1) / vzd r) n)]) d p'
  | VReverse d => p = p'
  | VBlocks d M m => p = pm (fun _ => [(M, None); (m, None)]) d p' /\ forall n, In (d, n) p' -> n = None
  | VBlocksDyn d M m q =>
      p = pm (fun _ => [(M, None); (m, None); (q, None)]) d p' /\ forall n, In (d, n) p' -> n = None
  | VBlocksSta d b M m _ =>
      p = pm (fun _ => [(b, Some 2); (M, None); (m, None)]) d p' /\ forall n, In (d, n) p' -> n = None
  | VMerge M m d => peeled d [M; m] 2 p' p
  | VZCurve _ _ d ds => peeled d ds (List.length ds) p' p
  | VReorder _ => Permutation p p'
  | VHoist d => In (d, None) p' /\ p = (d, None) :: pm (fun _ => []) d p'
  | VRename ps => p = map (fun e => (rename_dim ps (fst e), snd e)) p'
  | VJoin _ _ _ => False
  end.

(** Side conditions for the path lemmas. *)
Definition path_ok (v : view) (s s' : sig) (il : lenv -> asg -> dim -> Z) (l : lenv) (a : asg) (p : path) : Prop :=
  match v with
  | VReverse d => forall n, In (d, Some n) p -> il (view_lenv v l) a d = n
  | VReorder _ => sig_complete s' = true
  | VJoin _ _ _ => False
  | _ => True
  end.

Lemma pick_sigs_spec rs len f ss :
  pick_sigs rs len f = Some ss ->
  List.length ss = Z.to_nat len /\ len <= Z.of_nat (List.length rs) /\
  forall i, nthz ss i = if (0 <=? i) && (i <? len) then nthz rs (u64 (f i)) else None.
Proof.
  unfold pick_sigs. destruct (Z.leb_spec len (Z.of_nat (List.length rs))) as [Hl|]; [|discriminate].
  intros E. split; [rewrite (omap_length _ _ _ E), zseq_length; reflexivity|]. split; [exact Hl|].
  intros i. apply omap_Some_Forall2 in E. pose proof (Forall2_nthz _ _ _ i E) as H. rewrite nthz_zseq in H.
  destruct ((0 <=? i) && (i <? len)), (nthz ss i); auto; contradiction.
Qed.

(** A tuple dimension whose components are picked by [f]. *)
Lemma pick_path d rs len f ss a a' po (g : Z -> Z) :
  0 <= len -> (forall q, q <> d -> a' q = a q) -> (0 <= a d < len -> a' d = u64 (f (a d))) ->
  len = g (Z.of_nat (List.length rs)) ->
  snodup (SDep d rs) = true -> pick_sigs rs len f = Some ss ->
  spath (SDep d ss) a = Some po ->
  exists po', spath (SDep d rs) a' = Some po' /\ po = pm (fun n => [(d, option_map g n)]) d po'.
Proof.
  intros Hlen Ha Hd Hg Hn Ep E. apply pick_sigs_spec in Ep. destruct Ep as (HL & _ & Hnth).
  rewrite spath_dep, Hnth in E.
  destruct ((0 <=? a d) && (a d <? len)) eqn:Er; [|discriminate].
  assert (Hr : 0 <= a d < len) by lia. specialize (Hd Hr). rewrite <- Hd in E.
  destruct (nthz rs (a' d)) as [r|] eqn:Ern; [|discriminate].
  destruct (snodup_dep _ _ _ _ Hn Ern) as [Hdr _].
  destruct (spath r a) as [pr|] eqn:Epr; [|discriminate]. injection E as <-.
  exists ((d, Some (Z.of_nat (List.length rs))) :: pr).
  rewrite spath_dep, Ern, (spath_below d a a' r Ha Hdr), Epr. split; [reflexivity|].
  rewrite pm_cons_hit by (eapply spath_not_accept; eauto). simpl. rewrite HL, <- Hg, Z2Nat.id by lia. reflexivity.
Qed.

Lemma pick_path_back d rs len f ss a a' po' (g : Z -> Z) :
  (forall q, q <> d -> a' q = a q) -> 0 <= a d < len -> a' d = u64 (f (a d)) ->
  len = g (Z.of_nat (List.length rs)) ->
  snodup (SDep d rs) = true -> pick_sigs rs len f = Some ss ->
  spath (SDep d rs) a' = Some po' ->
  spath (SDep d ss) a = Some (pm (fun n => [(d, option_map g n)]) d po').
Proof.
  intros Ha Hr Hd Hg Hn Ep E. apply pick_sigs_spec in Ep. destruct Ep as (HL & _ & Hnth).
  rewrite spath_dep in E.
  destruct (nthz rs (a' d)) as [r|] eqn:Ern; [|discriminate].
  destruct (snodup_dep _ _ _ _ Hn Ern) as [Hdr _].
  rewrite (spath_below d a a' r Ha Hdr) in E.
  destruct (spath r a) as [pr|] eqn:Epr; [|discriminate]. injection E as <-.
  rewrite pm_cons_hit by (eapply spath_not_accept; eauto).
  rewrite spath_dep, Hnth. destruct (Z.leb_spec 0 (a d)), (Z.ltb_spec (a d) len); try lia.
  simpl. rewrite <- Hd, Ern, Epr. simpl. rewrite HL, <- Hg, Z2Nat.id by lia. reflexivity.
Qed.

(** A dimension that stays a plain dimension. *)
Lemma fun_path d al al' r a a' po g :
  (forall q, q <> d -> a' q = a q) -> snodup (SFun d al r) = true -> g None = [(d, None)] ->
  spath (SFun d al' r) a = Some po ->
  exists po', spath (SFun d al r) a' = Some po' /\ po = pm g d po' /\ forall n, In (d, n) po' -> n = None.
Proof.
  intros Ha Hn Hg E. apply snodup_fun in Hn. destruct Hn as [Hd Hr]. simpl in E.
  destruct (spath r a) as [pr|] eqn:Epr; [|discriminate]. inv E.
  pose proof (spath_not_accept _ _ _ _ Epr Hd) as Hno.
  exists ((d, None) :: pr). cbn [spath]. rewrite (spath_below d a a' r Ha Hd), Epr. split; [reflexivity|]. split.
  - rewrite pm_cons_hit, Hg by exact Hno. reflexivity.
  - intros n [H|H]; [congruence|]. exfalso. apply Hno. apply in_map_iff. exists (d, n). auto.
Qed.

Lemma fun_path_back d al al' r a a' po' g :
  (forall q, q <> d -> a' q = a q) -> snodup (SFun d al r) = true -> g None = [(d, None)] ->
  spath (SFun d al r) a' = Some po' ->
  spath (SFun d al' r) a = Some (pm g d po') /\ forall n, In (d, n) po' -> n = None.
Proof.
  intros Ha Hn Hg E. apply snodup_fun in Hn. destruct Hn as [Hd Hr]. simpl in E.
  rewrite (spath_below d a a' r Ha Hd) in E. destruct (spath r a) as [pr|] eqn:Epr; [|discriminate]. inv E.
  pose proof (spath_not_accept _ _ _ _ Epr Hd) as Hno. split.
  - rewrite pm_cons_hit, Hg by exact Hno. simpl. rewrite Epr. reflexivity.
  - intros n [H|H]; [congruence|]. exfalso. apply Hno. apply in_map_iff. exists (d, n). auto.
Qed.

Lemma pm_self d p : pm (fun n => [(d, n)]) d p = p.
Proof.
  induction p as [|[q n] p IH]; [reflexivity|]. simpl. rewrite IH.
  destruct (Z.eqb_spec q d); [subst|]; reflexivity.
Qed.

Lemma rev_nthz {A} (l : list A) k :
  0 <= k < Z.of_nat (List.length l) -> nthz (rev l) k = nthz l (Z.of_nat (List.length l) - 1 - k).
Proof.
  intros H. rewrite !nthz_nth_error.
  destruct (Z.leb_spec 0 k); [|lia]. destruct (Z.leb_spec 0 (Z.of_nat (List.length l) - 1 - k)); [|lia].
  destruct l as [|x0 l0]; [simpl in H; lia|]. set (l := x0 :: l0) in *.
  rewrite (nth_error_nth' (rev l) x0) by (rewrite rev_length; lia).
  rewrite (nth_error_nth' l x0) by lia. f_equal. rewrite rev_nth by lia. f_equal. lia.
Qed.

Lemma vstatic_vzd v k : vstatic v = Some k -> vzd v = k.
Proof. destruct v; simpl; try discriminate. intros E. injection E as <-. reflexivity. Qed.

Lemma vzd_range v : 0 <= vzd v < W.
Proof.
  destruct v; unfold vzd; simpl; try apply u64_range. rewrite W_eq. lia.
Qed.

Lemma fupd_neq {A} (f : dim -> A) d x q : q <> d -> fupd f d x q = f q.
Proof. intros H. unfold fupd. destruct (Z.eqb_spec q d); [contradiction|reflexivity]. Qed.
Lemma fupd_eq {A} (f : dim -> A) d x : fupd f d x d = x.
Proof. unfold fupd. rewrite Z.eqb_refl. reflexivity. Qed.

Lemma fupds_out {A} (f : dim -> A) ps q : ~ In q (map fst ps) -> fupds f ps q = f q.
Proof. intros H. rewrite fupds_alook. apply alook_None in H. rewrite H. reflexivity. Qed.

Ltac nodepQ := intros ? ?; exact I.

Theorem view_path v s s' il l a p :
  snodup s = true -> view_sig v s = Some s' -> spath s' a = Some p -> path_ok v s s' il l a p ->
  exists p', spath s (view_asg v il l a) = Some p' /\ prel v p' p.
Proof.
  intros Hn Es Ep Hok.
  destruct v as [d|d i|d n|d st|d st len|d st en|d st sr|d|d M m|d M m pd|d b M m ml|M m d|sl gl d ds|ds|d|ps|xa xb d].
  - (* bcast *) simpl in *. inv Es. simpl in Ep. destruct (spath s a) as [p'|]; [|discriminate]. inv Ep. eauto.
  - (* fix *)
    simpl in Es.
    edestruct (sreplace_path_at d _ (fun _ => []) (fun _ => True) a (view_asg (VFix d i) il l a) s _ _ Hn Es Ep) as (p' & E1 & E2 & _);
      [| |exists p'; split; [exact E1|exact E2]].
    + intros q Hq. apply fupd_neq, Hq.
    + intros o o' po [(al & r & ->)|(rs & ->)] Hno Hf Hpo _.
      * inv Hf. apply snodup_fun in Hno. destruct Hno as [Hd _]. exists ((d, None) :: po). cbn [spath].
        rewrite (spath_below d a) by (try exact Hd; intros q Hq; apply fupd_neq, Hq). rewrite Hpo.
        split; [reflexivity|]. split; [|nodepQ].
        rewrite pm_cons_hit by (eapply spath_not_accept; eauto). reflexivity.
      * destruct (vstatic i) as [k|] eqn:Ek; [|discriminate]. apply vstatic_vzd in Ek. subst k.
        destruct (snodup_dep _ _ _ _ Hno Hf) as [Hd _].
        exists ((d, Some (Z.of_nat (List.length rs))) :: po).
        rewrite spath_dep. simpl view_asg. rewrite fupd_eq, Hf.
        rewrite (spath_below d a) by (try exact Hd; intros q Hq; apply fupd_neq, Hq). rewrite Hpo.
        split; [reflexivity|]. split; [|nodepQ].
        rewrite pm_cons_hit by (eapply spath_not_accept; eauto). reflexivity.
  - (* set_length *)
    simpl in Es.
    edestruct (sreplace_path_at d _ (fun n => [(d, n)]) (fun n => n = None) a a s _ _ Hn Es Ep) as (p' & E1 & E2 & E3);
      [| |exists p'; rewrite pm_self in E2; subst; split; [exact E1|split; auto]].
    + auto.
    + intros o o' po [(al & r & ->)|(rs & ->)] Hno Hf Hpo _; [|discriminate]. inv Hf.
      eapply fun_path; eauto.
  - (* shift *)
    simpl in Es.
    edestruct (sreplace_path_at d _ (fun n => [(d, option_map (fun n => u64 (n - vzd st)) n)]) (fun _ => True) a
                 (view_asg (VShift d st) il l a) s _ _ Hn Es Ep) as (p' & E1 & E2 & _);
      [| |exists p'; split; [exact E1|exact E2]].
    + intros q Hq. apply fupd_neq, Hq.
    + intros o o' po [(al & r & ->)|(rs & ->)] Hno Hf Hpo _.
      * inv Hf. edestruct fun_path as (po' & A & B & _);
          [|exact Hno| |exact Hpo|exists po'; split; [exact A|split; [exact B|nodepQ]]]; [|reflexivity].
        intros q Hq. apply fupd_neq, Hq.
      * destruct (vstatic st) as [k|] eqn:Ek; [|discriminate]. apply vstatic_vzd in Ek. subst k.
        destruct (pick_sigs _ _ _) as [ss|] eqn:Ess; [|discriminate]. inv Hf.
        edestruct pick_path with (g := fun n => u64 (n - vzd st)) as (po' & A & B);
          [| | | |exact Hno|exact Ess|exact Hpo|exists po'; split; [exact A|split; [exact B|nodepQ]]].
        -- pose proof (u64_range (Z.of_nat (List.length rs) - vzd st)). lia.
        -- intros q Hq. apply fupd_neq, Hq.
        -- intros _. apply fupd_eq.
        -- reflexivity.
  - (* slice *)
    simpl in Es.
    edestruct (sreplace_path_at d _ (fun n => [(d, option_map (fun _ => vzd len) n)]) (fun _ => True) a
                 (view_asg (VSlice d st len) il l a) s _ _ Hn Es Ep) as (p' & E1 & E2 & _);
      [| |exists p'; split; [exact E1|exact E2]].
    + intros q Hq. apply fupd_neq, Hq.
    + intros o o' po [(al & r & ->)|(rs & ->)] Hno Hf Hpo _.
      * inv Hf. edestruct fun_path as (po' & A & B & _);
          [|exact Hno| |exact Hpo|exists po'; split; [exact A|split; [exact B|nodepQ]]]; [|reflexivity].
        intros q Hq. apply fupd_neq, Hq.
      * destruct (vstatic st) as [k|] eqn:Ek; [|discriminate]. apply vstatic_vzd in Ek. subst k.
        destruct (vstatic len) as [k|] eqn:Ek; [|discriminate]. apply vstatic_vzd in Ek. subst k.
        destruct (pick_sigs _ _ _) as [ss|] eqn:Ess; [|discriminate]. inv Hf.
        edestruct pick_path with (g := fun _ : Z => vzd len) as (po' & A & B);
          [| | | |exact Hno|exact Ess|exact Hpo|exists po'; split; [exact A|split; [exact B|nodepQ]]].
        -- pose proof (vzd_range len). lia.
        -- intros q Hq. apply fupd_neq, Hq.
        -- intros _. apply fupd_eq.
        -- reflexivity.
  - (* span *)
    simpl in Es.
    edestruct (sreplace_path_at d _ (fun n => [(d, option_map (fun _ => u64 (vzd en - vzd st)) n)]) (fun _ => True) a
                 (view_asg (VSpan d st en) il l a) s _ _ Hn Es Ep) as (p' & E1 & E2 & _);
      [| |exists p'; split; [exact E1|exact E2]].
    + intros q Hq. apply fupd_neq, Hq.
    + intros o o' po [(al & r & ->)|(rs & ->)] Hno Hf Hpo _.
      * inv Hf. edestruct fun_path as (po' & A & B & _);
          [|exact Hno| |exact Hpo|exists po'; split; [exact A|split; [exact B|nodepQ]]]; [|reflexivity].
        intros q Hq. apply fupd_neq, Hq.
      * destruct (vstatic st) as [k|] eqn:Ek; [|discriminate]. apply vstatic_vzd in Ek. subst k.
        destruct (vstatic en) as [k|] eqn:Ek; [|discriminate]. apply vstatic_vzd in Ek. subst k.
        destruct (pick_sigs _ _ _) as [ss|] eqn:Ess; [|discriminate]. inv Hf.
        edestruct pick_path with (g := fun _ : Z => u64 (vzd en - vzd st)) as (po' & A & B);
          [| | | |exact Hno|exact Ess|exact Hpo|exists po'; split; [exact A|split; [exact B|nodepQ]]].
        -- pose proof (u64_range (vzd en - vzd st)). lia.
        -- intros q Hq. apply fupd_neq, Hq.
        -- intros _. apply fupd_eq.
        -- reflexivity.
  - (* step *)
    simpl in Es.
    edestruct (sreplace_path_at d _ (fun n => [(d, option_map (fun n => u64 (n + vzd sr - vzd st - 1) / vzd sr) n)])
                 (fun _ => True) a (view_asg (VStep d st sr) il l a) s _ _ Hn Es Ep) as (p' & E1 & E2 & _);
      [| |exists p'; split; [exact E1|exact E2]].
    + intros q Hq. apply fupd_neq, Hq.
    + intros o o' po [(al & r & ->)|(rs & ->)] Hno Hf Hpo _.
      * inv Hf. edestruct fun_path as (po' & A & B & _);
          [|exact Hno| |exact Hpo|exists po'; split; [exact A|split; [exact B|nodepQ]]]; [|reflexivity].
        intros q Hq. apply fupd_neq, Hq.
      * destruct (vstatic st) as [k|] eqn:Ek; [|discriminate]. apply vstatic_vzd in Ek. subst k.
        destruct (vstatic sr) as [k|] eqn:Ek; [|discriminate]. apply vstatic_vzd in Ek. subst k.
        destruct (Z.eqb_spec (vzd sr) 0); [discriminate|].
        destruct (pick_sigs _ _ _) as [ss|] eqn:Ess; [|discriminate]. inv Hf.
        edestruct pick_path with (g := fun n : Z => u64 (n + vzd sr - vzd st - 1) / vzd sr) as (po' & A & B);
          [| | | |exact Hno|exact Ess|exact Hpo|exists po'; split; [exact A|split; [exact B|nodepQ]]].
        -- pose proof (vzd_range sr). pose proof (u64_range (Z.of_nat (List.length rs) + vzd sr - vzd st - 1)).
           apply Z.div_pos; lia.
        -- intros q Hq. apply fupd_neq, Hq.
        -- intros _. apply fupd_eq.
        -- reflexivity.
  - (* reverse *)
    simpl in Es. simpl in Hok.
    edestruct (sreplace_path_at d _ (fun n => [(d, n)]) (fun _ => True) a (view_asg (VReverse d) il l a) s _ _ Hn Es Ep)
      as (p' & E1 & E2 & _); [| |exists p'; rewrite pm_self in E2; split; [exact E1|exact E2]].
    + intros q Hq. apply fupd_neq, Hq.
    + intros o o' po [(al & r & ->)|(rs & ->)] Hno Hf Hpo Hincl.
      * inv Hf. edestruct fun_path as (po' & A & B & _);
          [|exact Hno| |exact Hpo|exists po'; split; [exact A|split; [exact B|nodepQ]]]; [|reflexivity].
        intros q Hq. apply fupd_neq, Hq.
      * injection Hf as <-. rewrite spath_dep, rev_length in Hpo.
        destruct (nthz (rev rs) (a d)) as [r|] eqn:Er; [|discriminate].
        destruct (spath r a) as [pr|] eqn:Epr; [|discriminate]. inv Hpo.
        pose proof (nthz_Some_range _ _ _ Er) as Hr. rewrite rev_length in Hr. rewrite rev_nthz in Er by exact Hr.
        destruct (snodup_dep _ _ _ _ Hno Er) as [Hd _].
        assert (Hw : Z.of_nat (List.length rs) < W).
        { simpl in Hno. rewrite !andb_true_iff in Hno. lia. }
        exists ((d, Some (Z.of_nat (List.length rs))) :: pr).
        rewrite spath_dep. simpl view_asg. rewrite fupd_eq.
        rewrite (Hok (Z.of_nat (List.length rs))) by (apply Hincl; left; reflexivity).
        rewrite u64_small by lia. rewrite Er, (spath_below d a), Epr; [|intros q Hq; apply fupd_neq, Hq|exact Hd].
        split; [reflexivity|]. split; [rewrite pm_self; reflexivity|nodepQ].
  - (* into_blocks *)
    simpl in Es. destruct (_ || _); [discriminate|].
    edestruct (sreplace_path_at d _ (fun _ => [(M, None); (m, None)]) (fun n => n = None) a
                 (view_asg (VBlocks d M m) il l a) s _ _ Hn Es Ep) as (p' & E1 & E2 & E3);
      [| |exists p'; split; [exact E1|split; assumption]].
    + intros q Hq. apply fupd_neq, Hq.
    + intros o o' po [(al & r & ->)|(rs & ->)] Hno Hf Hpo _; [|discriminate]. inv Hf.
      apply snodup_fun in Hno. destruct Hno as [Hd _]. simpl in Hpo.
      destruct (spath r a) as [pr|] eqn:Epr; [|discriminate]. simpl in Hpo. inv Hpo.
      pose proof (spath_not_accept _ _ _ _ Epr Hd) as Hno.
      exists ((d, None) :: pr). cbn [spath]. rewrite (spath_below d a), Epr; [|intros q Hq; apply fupd_neq, Hq|exact Hd].
      split; [reflexivity|]. split.
      * rewrite pm_cons_hit by exact Hno. reflexivity.
      * intros n [H|H]; [congruence|]. exfalso. apply Hno. apply in_map_iff. exists (d, n). auto.
  - (* into_blocks_dynamic *)
    simpl in Es. destruct (_ || _); [discriminate|].
    edestruct (sreplace_path_at d _ (fun _ => [(M, None); (m, None); (pd, None)]) (fun n => n = None) a
                 (view_asg (VBlocksDyn d M m pd) il l a) s _ _ Hn Es Ep) as (p' & E1 & E2 & E3);
      [| |exists p'; split; [exact E1|split; assumption]].
    + intros q Hq. apply fupd_neq, Hq.
    + intros o o' po [(al & r & ->)|(rs & ->)] Hno Hf Hpo _; [|discriminate]. inv Hf.
      apply snodup_fun in Hno. destruct Hno as [Hd _]. simpl in Hpo.
      destruct (spath r a) as [pr|] eqn:Epr; [|discriminate]. simpl in Hpo. inv Hpo.
      pose proof (spath_not_accept _ _ _ _ Epr Hd) as Hno.
      exists ((d, None) :: pr). cbn [spath]. rewrite (spath_below d a), Epr; [|intros q Hq; apply fupd_neq, Hq|exact Hd].
      split; [reflexivity|]. split.
      * rewrite pm_cons_hit by exact Hno. reflexivity.
      * intros n [H|H]; [congruence|]. exfalso. apply Hno. apply in_map_iff. exists (d, n). auto.
  - (* into_blocks_static *)
    simpl in Es. destruct (_ || _); [discriminate|].
    edestruct (sreplace_path_at d _ (fun _ => [(b, Some 2); (M, None); (m, None)]) (fun n => n = None) a
                 (view_asg (VBlocksSta d b M m ml) il l a) s _ _ Hn Es Ep) as (p' & E1 & E2 & E3);
      [| |exists p'; split; [exact E1|split; assumption]].
    + intros q Hq. apply fupd_neq, Hq.
    + intros o o' po [(al & r & ->)|(rs & ->)] Hno Hf Hpo _; [|discriminate].
      destruct (arglen_divmod al (arglen_of ml)) as [[quo rem]|]; [|discriminate]. injection Hf as <-.
      apply snodup_fun in Hno. destruct Hno as [Hd _].
      rewrite spath_dep in Hpo.
      assert (Hpo' : exists pr, spath r a = Some pr /\ po = (b, Some 2) :: (M, None) :: (m, None) :: pr).
      { simpl nthz in Hpo. destruct (a b =? 0); [|destruct (a b - 1 =? 0); [|discriminate]];
          simpl in Hpo; (destruct (spath r a) as [pr|]; [|discriminate]); simpl in Hpo; inv Hpo; eauto. }
      destruct Hpo' as (pr & Epr & ->).
      pose proof (spath_not_accept _ _ _ _ Epr Hd) as Hno.
      exists ((d, None) :: pr). cbn [spath]. rewrite (spath_below d a), Epr; [|intros q Hq; apply fupd_neq, Hq|exact Hd].
      split; [reflexivity|]. split.
      * rewrite pm_cons_hit by exact Hno. reflexivity.
      * intros n [H|H]; [congruence|]. exfalso. apply Hno. apply in_map_iff. exists (d, n). auto.
  - (* merge_blocks *)
    apply merge_peel in Es. eapply peel_path; [exact Es|lia|apply maxc_length, Hn| |exact Ep].
    intros q Hq. apply fupds_out. simpl in *. tauto.
  - (* zcurve *)
    assert (Hpos : (0 < List.length ds)%nat).
    { simpl in Es. destruct (_ && _) eqn:E in Es; [|discriminate]. lia. }
    apply zcurve_peel in Es. eapply peel_path; [exact Es|exact Hpos|apply maxc_length, Hn| |exact Ep].
    intros q Hq. apply fupds_out. intros Hin. apply Hq. apply in_map_iff in Hin.
    destruct Hin as ([x y] & <- & Hin). apply in_combine_l in Hin. exact Hin.
  - (* reorder *)
    simpl in Es, Hok. simpl view_asg.
    destruct (build_path s a Hn ds [] s' p Es Hok) as (Hnd & Hmap & p' & Ep' & Hin & Hsub);
      [intros q v k E; discriminate|exact Ep|].
    exists p'. split; [exact Ep'|]. simpl.
    pose proof (spath_nodup _ _ _ Hn Ep') as Hnd'.
    apply NoDup_Permutation.
    + rewrite <- Hmap in Hnd. eapply NoDup_map_inv, Hnd.
    + eapply NoDup_map_inv, Hnd'.
    + intros e. split; [apply Hsub|]. intros He. destruct (Hin e He) as [H|H]; [discriminate|].
      rewrite <- Hmap in H. apply in_map_iff in H. destruct H as (e2 & E2 & He2).
      pose proof (Hsub _ He2) as He2'.
      assert (e = e2); [|subst; exact He2].
      clear - Hnd' He He2' E2. induction p' as [|x p' IH]; [destruct He|]. simpl in Hnd'. inv Hnd'.
      destruct He as [->|He], He2' as [->|He2]; auto.
      * exfalso. apply H1. rewrite <- E2. apply in_map, He2.
      * exfalso. apply H1. rewrite E2. apply in_map, He.
  - (* hoist *)
    simpl in Es. destruct (sig_find_dim d [] s) as [o|] eqn:Ef; [|discriminate].
    destruct o as [| |x al r|x rs]; try discriminate.
    destruct (sreplace [d] _ s) as [s1|] eqn:Er in Es; [|discriminate]. inv Es.
    simpl in Ep. destruct (spath s1 a) as [p1|] eqn:Ep1; [|discriminate]. inv Ep.
    edestruct (sreplace_path_at d _ (fun _ => []) (fun _ => True) a a s _ _ Hn Er Ep1) as (p' & E1 & E2 & _);
      [| |].
    + auto.
    + intros o o' po [(al' & r' & ->)|(rs & ->)] Hno Hf Hpo _; [|discriminate]. inv Hf.
      apply snodup_fun in Hno. destruct Hno as [Hd _]. exists ((d, None) :: po). cbn [spath]. rewrite Hpo.
      split; [reflexivity|]. split; [|nodepQ].
      rewrite pm_cons_hit by (eapply spath_not_accept; eauto). reflexivity.
    + exists p'. split; [exact E1|]. simpl. destruct (find_none_path _ _ _ _ _ _ _ Ef E1) as [_ Hin].
      split; [exact Hin|]. rewrite E2. reflexivity.
  - (* rename *)
    simpl in Es. destruct (_ && _); [|discriminate]. inv Es. rewrite spath_rename in Ep. simpl view_asg.
    destruct (spath s _) as [p'|]; [|discriminate]. inv Ep. exists p'. split; reflexivity.
  - destruct Hok.
Qed.

(** Conditions for the way back: the index of a picked tuple component must be allowed. *)
Definition path_ok_back (v : view) (s s' : sig) (il : lenv -> asg -> dim -> Z) (l : lenv) (a : asg) (p' : path) : Prop :=
  match v with
  | VShift d s => forall n, In (d, Some n) p' -> 0 <= a d < u64 (n - vzd s)
  | VSlice d _ len => forall n, In (d, Some n) p' -> 0 <= a d < vzd len
  | VSpan d s e => forall n, In (d, Some n) p' -> 0 <= a d < u64 (vzd e - vzd s)
  | VStep d s r => forall n, In (d, Some n) p' -> 0 <= a d < u64 (n + vzd r - vzd s - 1) / vzd r
  | VReverse d => forall n, In (d, Some n) p' -> 0 <= a d < n /\ il (view_lenv v l) a d = n
  | VBlocksSta d b _ _ _ => 0 <= a b < 2
  | VReorder _ => sig_complete s' = true
  | VJoin _ _ _ => False
  | _ => True
  end.

Theorem view_path_back v s s' il l a p' :
  snodup s = true -> view_sig v s = Some s' -> spath s (view_asg v il l a) = Some p' ->
  path_ok_back v s s' il l a p' ->
  exists p, spath s' a = Some p /\ prel v p' p.
Proof.
  intros Hn Es Ep Hok.
  destruct v as [d|d i|d n|d st|d st len|d st en|d st sr|d|d M m|d M m pd|d b M m ml|M m d|sl gl d ds|ds|d|ps|xa xb d].
  - (* bcast *) simpl in *. inv Es. simpl. rewrite Ep. simpl. eauto.
  - (* fix *)
    simpl in Es.
    edestruct (sreplace_path_back_at d _ (fun _ => []) (fun _ => True) a (view_asg (VFix d i) il l a) s _ _ Hn Es Ep)
      as (E1 & _); [| |eexists; split; [exact E1|reflexivity]].
    + intros q Hq. apply fupd_neq, Hq.
    + intros o o' po [(al & r & ->)|(rs & ->)] Hno Hf Hpo _.
      * inv Hf. apply snodup_fun in Hno. destruct Hno as [Hd _]. cbn [spath] in Hpo.
        rewrite (spath_below d a) in Hpo by (try exact Hd; intros q Hq; apply fupd_neq, Hq).
        destruct (spath o' a) as [pr|] eqn:Epr; [|discriminate]. inv Hpo.
        rewrite pm_cons_hit by (eapply spath_not_accept; eauto). split; [reflexivity|nodepQ].
      * destruct (vstatic i) as [k|] eqn:Ek; [|discriminate]. apply vstatic_vzd in Ek. subst k.
        destruct (snodup_dep _ _ _ _ Hno Hf) as [Hd _].
        rewrite spath_dep in Hpo. simpl view_asg in Hpo. rewrite fupd_eq, Hf in Hpo.
        rewrite (spath_below d a) in Hpo by (try exact Hd; intros q Hq; apply fupd_neq, Hq).
        destruct (spath o' a) as [pr|] eqn:Epr; [|discriminate]. inv Hpo.
        rewrite pm_cons_hit by (eapply spath_not_accept; eauto). split; [reflexivity|nodepQ].
  - (* set_length *)
    simpl in Es.
    edestruct (sreplace_path_back_at d _ (fun n => [(d, n)]) (fun n => n = None) a a s _ _ Hn Es Ep)
      as (E1 & E2); [| |eexists; split; [exact E1|split; [apply pm_self|exact E2]]].
    + auto.
    + intros o o' po [(al & r & ->)|(rs & ->)] Hno Hf Hpo _; [|discriminate]. inv Hf.
      eapply fun_path_back; eauto.
  - (* shift *)
    simpl in Es.
    edestruct (sreplace_path_back_at d _ (fun n => [(d, option_map (fun n => u64 (n - vzd st)) n)]) (fun _ => True) a
                 (view_asg (VShift d st) il l a) s _ _ Hn Es Ep) as (E1 & _);
      [| |eexists; split; [exact E1|reflexivity]].
    + intros q Hq. apply fupd_neq, Hq.
    + intros o o' po [(al & r & ->)|(rs & ->)] Hno Hf Hpo Hincl.
      * inv Hf. split; [|nodepQ]. eapply fun_path_back; [|exact Hno|reflexivity|exact Hpo].
        intros q Hq. apply fupd_neq, Hq.
      * destruct (vstatic st) as [k|] eqn:Ek; [|discriminate]. apply vstatic_vzd in Ek. subst k.
        destruct (pick_sigs _ _ _) as [ss|] eqn:Ess; [|discriminate]. inv Hf.
        split; [|nodepQ]. eapply pick_path_back; [| | | |exact Hno|exact Ess|exact Hpo].
        -- intros q Hq. apply fupd_neq, Hq.
        -- apply Hok, Hincl. rewrite spath_dep in Hpo. destruct (nthz rs _); [|discriminate].
           destruct (spath s0 _); [|discriminate]. inv Hpo. left. reflexivity.
        -- apply fupd_eq.
        -- reflexivity.
  - (* slice *)
    simpl in Es.
    edestruct (sreplace_path_back_at d _ (fun n => [(d, option_map (fun _ => vzd len) n)]) (fun _ => True) a
                 (view_asg (VSlice d st len) il l a) s _ _ Hn Es Ep) as (E1 & _);
      [| |eexists; split; [exact E1|reflexivity]].
    + intros q Hq. apply fupd_neq, Hq.
    + intros o o' po [(al & r & ->)|(rs & ->)] Hno Hf Hpo Hincl.
      * inv Hf. split; [|nodepQ]. eapply fun_path_back; [|exact Hno|reflexivity|exact Hpo].
        intros q Hq. apply fupd_neq, Hq.
      * destruct (vstatic st) as [k|] eqn:Ek; [|discriminate]. apply vstatic_vzd in Ek. subst k.
        destruct (vstatic len) as [k|] eqn:Ek; [|discriminate]. apply vstatic_vzd in Ek. subst k.
        destruct (pick_sigs _ _ _) as [ss|] eqn:Ess; [|discriminate]. inv Hf.
        split; [|nodepQ]. eapply pick_path_back with (g := fun _ : Z => vzd len); [| | | |exact Hno|exact Ess|exact Hpo].
        -- intros q Hq. apply fupd_neq, Hq.
        -- eapply Hok, Hincl. rewrite spath_dep in Hpo. destruct (nthz rs _); [|discriminate].
           destruct (spath s0 _); [|discriminate]. inv Hpo. left. reflexivity.
        -- apply fupd_eq.
        -- reflexivity.
  - (* span *)
    simpl in Es.
    edestruct (sreplace_path_back_at d _ (fun n => [(d, option_map (fun _ => u64 (vzd en - vzd st)) n)]) (fun _ => True) a
                 (view_asg (VSpan d st en) il l a) s _ _ Hn Es Ep) as (E1 & _);
      [| |eexists; split; [exact E1|reflexivity]].
    + intros q Hq. apply fupd_neq, Hq.
    + intros o o' po [(al & r & ->)|(rs & ->)] Hno Hf Hpo Hincl.
      * inv Hf. split; [|nodepQ]. eapply fun_path_back; [|exact Hno|reflexivity|exact Hpo].
        intros q Hq. apply fupd_neq, Hq.
      * destruct (vstatic st) as [k|] eqn:Ek; [|discriminate]. apply vstatic_vzd in Ek. subst k.
        destruct (vstatic en) as [k|] eqn:Ek; [|discriminate]. apply vstatic_vzd in Ek. subst k.
        destruct (pick_sigs _ _ _) as [ss|] eqn:Ess; [|discriminate]. inv Hf.
        split; [|nodepQ].
        eapply pick_path_back with (g := fun _ : Z => u64 (vzd en - vzd st)); [| | | |exact Hno|exact Ess|exact Hpo].
        -- intros q Hq. apply fupd_neq, Hq.
        -- eapply Hok, Hincl. rewrite spath_dep in Hpo. destruct (nthz rs _); [|discriminate].
           destruct (spath s0 _); [|discriminate]. inv Hpo. left. reflexivity.
        -- apply fupd_eq.
        -- reflexivity.
  - (* step *)
    simpl in Es.
    edestruct (sreplace_path_back_at d _ (fun n => [(d, option_map (fun n => u64 (n + vzd sr - vzd st - 1) / vzd sr) n)])
                 (fun _ => True) a (view_asg (VStep d st sr) il l a) s _ _ Hn Es Ep) as (E1 & _);
      [| |eexists; split; [exact E1|reflexivity]].
    + intros q Hq. apply fupd_neq, Hq.
    + intros o o' po [(al & r & ->)|(rs & ->)] Hno Hf Hpo Hincl.
      * inv Hf. split; [|nodepQ]. eapply fun_path_back; [|exact Hno|reflexivity|exact Hpo].
        intros q Hq. apply fupd_neq, Hq.
      * destruct (vstatic st) as [k|] eqn:Ek; [|discriminate]. apply vstatic_vzd in Ek. subst k.
        destruct (vstatic sr) as [k|] eqn:Ek; [|discriminate]. apply vstatic_vzd in Ek. subst k.
        destruct (Z.eqb_spec (vzd sr) 0); [discriminate|].
        destruct (pick_sigs _ _ _) as [ss|] eqn:Ess; [|discriminate]. inv Hf.
        split; [|nodepQ].
        eapply pick_path_back with (g := fun n : Z => u64 (n + vzd sr - vzd st - 1) / vzd sr);
          [| | | |exact Hno|exact Ess|exact Hpo].
        -- intros q Hq. apply fupd_neq, Hq.
        -- apply Hok, Hincl. rewrite spath_dep in Hpo. destruct (nthz rs _); [|discriminate].
           destruct (spath s0 _); [|discriminate]. inv Hpo. left. reflexivity.
        -- apply fupd_eq.
        -- reflexivity.
  - (* reverse *)
    simpl in Es. simpl in Hok.
    edestruct (sreplace_path_back_at d _ (fun n => [(d, n)]) (fun _ => True) a (view_asg (VReverse d) il l a) s _ _ Hn Es Ep)
      as (E1 & _); [| |eexists; split; [exact E1|apply pm_self]].
    + intros q Hq. apply fupd_neq, Hq.
    + intros o o' po [(al & r & ->)|(rs & ->)] Hno Hf Hpo Hincl.
      * inv Hf. split; [|nodepQ]. eapply fun_path_back; [|exact Hno|reflexivity|exact Hpo].
        intros q Hq. apply fupd_neq, Hq.
      * injection Hf as <-. rewrite spath_dep in Hpo. simpl view_asg in Hpo. rewrite fupd_eq in Hpo.
        destruct (nthz rs _) as [r|] eqn:Er in Hpo; [|discriminate].
        destruct (snodup_dep _ _ _ _ Hno Er) as [Hd _].
        rewrite (spath_below d a) in Hpo by (try exact Hd; intros q Hq; apply fupd_neq, Hq).
        destruct (spath r a) as [pr|] eqn:Epr; [|discriminate]. injection Hpo as <-.
        assert (Hw : Z.of_nat (List.length rs) < W).
        { simpl in Hno. rewrite !andb_true_iff in Hno. lia. }
        destruct (Hok (Z.of_nat (List.length rs))) as [Hr Hl]; [apply Hincl; left; reflexivity|].
        rewrite Hl, u64_small in Er by lia.
        rewrite pm_self, spath_dep, rev_length, rev_nthz, Er, Epr by exact Hr. split; [reflexivity|nodepQ].
  - (* into_blocks *)
    simpl in Es. destruct (_ || _); [discriminate|].
    edestruct (sreplace_path_back_at d _ (fun _ => [(M, None); (m, None)]) (fun n => n = None) a
                 (view_asg (VBlocks d M m) il l a) s _ _ Hn Es Ep) as (E1 & E2);
      [| |eexists; split; [exact E1|split; [reflexivity|exact E2]]].
    + intros q Hq. apply fupd_neq, Hq.
    + intros o o' po [(al & r & ->)|(rs & ->)] Hno Hf Hpo _; [|discriminate]. inv Hf.
      apply snodup_fun in Hno. destruct Hno as [Hd _]. cbn [spath] in Hpo.
      rewrite (spath_below d a) in Hpo by (try exact Hd; intros q Hq; apply fupd_neq, Hq).
      destruct (spath r a) as [pr|] eqn:Epr; [|discriminate]. inv Hpo.
      pose proof (spath_not_accept _ _ _ _ Epr Hd) as Hno.
      rewrite pm_cons_hit by exact Hno. simpl. rewrite Epr. split; [reflexivity|].
      intros n [H|H]; [congruence|]. exfalso. apply Hno. apply in_map_iff. exists (d, n). auto.
  - (* into_blocks_dynamic *)
    simpl in Es. destruct (_ || _); [discriminate|].
    edestruct (sreplace_path_back_at d _ (fun _ => [(M, None); (m, None); (pd, None)]) (fun n => n = None) a
                 (view_asg (VBlocksDyn d M m pd) il l a) s _ _ Hn Es Ep) as (E1 & E2);
      [| |eexists; split; [exact E1|split; [reflexivity|exact E2]]].
    + intros q Hq. apply fupd_neq, Hq.
    + intros o o' po [(al & r & ->)|(rs & ->)] Hno Hf Hpo _; [|discriminate]. inv Hf.
      apply snodup_fun in Hno. destruct Hno as [Hd _]. cbn [spath] in Hpo.
      rewrite (spath_below d a) in Hpo by (try exact Hd; intros q Hq; apply fupd_neq, Hq).
      destruct (spath r a) as [pr|] eqn:Epr; [|discriminate]. inv Hpo.
      pose proof (spath_not_accept _ _ _ _ Epr Hd) as Hno.
      rewrite pm_cons_hit by exact Hno. simpl. rewrite Epr. split; [reflexivity|].
      intros n [H|H]; [congruence|]. exfalso. apply Hno. apply in_map_iff. exists (d, n). auto.
  - (* into_blocks_static *)
    simpl in Es. destruct (_ || _); [discriminate|].
    edestruct (sreplace_path_back_at d _ (fun _ => [(b, Some 2); (M, None); (m, None)]) (fun n => n = None) a
                 (view_asg (VBlocksSta d b M m ml) il l a) s _ _ Hn Es Ep) as (E1 & E2);
      [| |eexists; split; [exact E1|split; [reflexivity|exact E2]]].
    + intros q Hq. apply fupd_neq, Hq.
    + intros o o' po [(al & r & ->)|(rs & ->)] Hno Hf Hpo _; [|discriminate].
      destruct (arglen_divmod al (arglen_of ml)) as [[quo rem]|]; [|discriminate]. injection Hf as <-.
      apply snodup_fun in Hno. destruct Hno as [Hd _]. cbn [spath] in Hpo.
      rewrite (spath_below d a) in Hpo by (try exact Hd; intros q Hq; apply fupd_neq, Hq).
      destruct (spath r a) as [pr|] eqn:Epr; [|discriminate]. inv Hpo.
      pose proof (spath_not_accept _ _ _ _ Epr Hd) as Hno.
      rewrite pm_cons_hit by exact Hno. rewrite spath_dep. simpl in Hok. simpl nthz.
      split.
      * destruct (Z.eqb_spec (a b) 0); [simpl; rewrite Epr; reflexivity|].
        destruct (Z.eqb_spec (a b - 1) 0); [simpl; rewrite Epr; reflexivity|lia].
      * intros n [H|H]; [congruence|]. exfalso. apply Hno. apply in_map_iff. exists (d, n). auto.
  - (* merge_blocks *)
    apply merge_peel in Es. eapply peel_path_back; [exact Es|lia|apply maxc_length, Hn| |exact Ep].
    intros q Hq. apply fupds_out. simpl in *. tauto.
  - (* zcurve *)
    assert (Hpos : (0 < List.length ds)%nat).
    { simpl in Es. destruct (_ && _) eqn:E in Es; [|discriminate]. lia. }
    apply zcurve_peel in Es. eapply peel_path_back; [exact Es|exact Hpos|apply maxc_length, Hn| |exact Ep].
    intros q Hq. apply fupds_out. intros Hin. apply Hq. apply in_map_iff in Hin.
    destruct Hin as ([x y] & <- & Hin). apply in_combine_l in Hin. exact Hin.
  - (* reorder *)
    simpl in Ep, Hok. pose proof Es as Es'. simpl in Es'.
    destruct (build_path_back s a p' Hn Ep ds [] s' Es' Hok) as [p Ep1]; [intros q v k E; discriminate|].
    exists p. split; [exact Ep1|].
    destruct (view_path (VReorder ds) s s' il l a p Hn Es Ep1 Hok) as (p2 & E2 & H).
    simpl in E2. rewrite Ep in E2. inv E2. exact H.
  - (* hoist *)
    simpl in Es, Ep. destruct (sig_find_dim d [] s) as [o|] eqn:Ef; [|discriminate].
    destruct o as [| |x al r|x rs]; try discriminate.
    destruct (sreplace [d] _ s) as [s1|] eqn:Er in Es; [|discriminate]. inv Es.
    edestruct (sreplace_path_back_at d _ (fun _ => []) (fun _ => True) a a s _ _ Hn Er Ep) as (E1 & _).
    + auto.
    + intros o o' po [(al' & r' & ->)|(rs & ->)] Hno Hf Hpo _; [|discriminate]. inv Hf.
      apply snodup_fun in Hno. destruct Hno as [Hd _]. cbn [spath] in Hpo.
      destruct (spath o' a) as [pr|] eqn:Epr; [|discriminate]. inv Hpo.
      rewrite pm_cons_hit by (eapply spath_not_accept; eauto). split; [reflexivity|nodepQ].
    + simpl. rewrite E1. eexists. split; [reflexivity|].
      destruct (find_none_path _ _ _ _ _ _ _ Ef Ep) as [_ Hin]. split; [exact Hin|reflexivity].
  - (* rename *)
    simpl in Es. destruct (_ && _); [|discriminate]. inv Es. rewrite spath_rename. simpl in Ep.
    rewrite Ep. eexists. split; reflexivity.
  - destruct Hok.
Qed.

(** ** Signatures stay free of repeated dimensions *)

Definition nodup_ok (v : view) (s : sig) : Prop :=
  match v with VBcast d => any_accept d s = false | VJoin _ _ _ => False | _ => True end.

Lemma pick_snodup d rs len f ss :
  0 <= len -> snodup (SDep d rs) = true -> pick_sigs rs len f = Some ss -> snodup (SDep d ss) = true.
Proof.
  intros Hl Hn Ep. apply pick_sigs_spec in Ep. destruct Ep as (HL & Hle & Hnth).
  pose proof Hn as Hn'. simpl in Hn'. rewrite !andb_true_iff in Hn'. simpl.
  rewrite !andb_true_iff, !forallb_forall, HL. split; [lia|].
  split; intros r Hr; destruct (In_nthz _ _ Hr) as [k Hk]; rewrite Hnth in Hk;
    (destruct (_ && _); [|discriminate]); destruct (snodup_dep _ _ _ _ Hn Hk) as [Ha Hb]; [|exact Hb].
  rewrite Ha. reflexivity.
Qed.

Lemma pick_accept d rs len f ss q :
  pick_sigs rs len f = Some ss -> any_accept q (SDep d ss) = true -> any_accept q (SDep d rs) = true.
Proof.
  intros Ep. apply pick_sigs_spec in Ep. destruct Ep as (HL & Hle & Hnth). simpl.
  destruct (d =? q); [reflexivity|]. simpl. intros H. apply existsb_exists in H. destruct H as (r & Hr & Ha).
  destruct (In_nthz _ _ Hr) as [k Hk]. rewrite Hnth in Hk. destruct (_ && _); [|discriminate].
  apply existsb_exists. exists r. split; [eapply nthz_In, Hk|exact Ha].
Qed.

Lemma drop_accept d s s' :
  snodup s = true ->
  sreplace [d] (fun o => match o with SFun _ _ r => Some r | _ => None end) s = Some s' ->
  any_accept d s' = false.
Proof.
  revert s'. induction s as [c| |q al r IH|q rs IH] using sig_ind'; intros s' Hn Es.
  - inv Es. reflexivity.
  - inv Es. reflexivity.
  - simpl in Es. rewrite orb_false_r in Es. apply snodup_fun in Hn. destruct (Z.eqb_spec q d) as [->|Hq].
    + inv Es. tauto.
    + destruct (sreplace _ _ r) as [r'|] eqn:Er; [|discriminate]. inv Es. simpl.
      destruct (Z.eqb_spec q d); [contradiction|]. apply IH; [tauto|reflexivity].
  - simpl in Es. rewrite orb_false_r in Es. destruct (Z.eqb_spec q d) as [->|Hq]; [discriminate|].
    match type of Es with match ?x with _ => _ end = _ => destruct x as [rs'|] eqn:Er; [|discriminate] end.
    inv Es. simpl. destruct (Z.eqb_spec q d); [contradiction|]. simpl.
    destruct (existsb (any_accept d) rs') eqn:Ex; [|reflexivity]. apply existsb_exists in Ex.
    destruct Ex as (r' & Hin & Ex). apply (omap_Some_In _ _ _ Er) in Hin. destruct Hin as (r & Hin & Er').
    rewrite Forall_forall in IH. destruct (In_nthz _ _ Hin) as [k Hk].
    rewrite (IH _ Hin r') in Ex; [discriminate|eapply snodup_dep; eauto|exact Er'].
Qed.

Ltac one_dim Hin :=
  match type of Hin with
  | (exists d al r, In d [?x] /\ _) \/ _ =>
      destruct Hin as [(?d & ?al & ?r & [<-|[]] & ->)|(?d & ?rs & [<-|[]] & ->)]
  end.

Theorem view_snodup v s s' :
  snodup s = true -> view_sig v s = Some s' -> nodup_ok v s -> snodup s' = true.
Proof.
  intros Hn Es Hok.
  destruct v as [d|d i|d n|d st|d st len|d st en|d st sr|d|d M m|d M m pd|d b M m ml|M m d|sl gl d ds|ds|d|ps|xa xb d].
  - simpl in *. inv Es. simpl. rewrite Hok, Hn. reflexivity.
  - simpl in Es. eapply sreplace_snodup; [| |exact Hn|exact Es].
    + intros o o' Ho _ Hno Hf. one_dim Ho.
      * inv Hf. apply snodup_fun in Hno. tauto.
      * destruct (vstatic i); [|discriminate]. eapply snodup_dep; eauto.
    + intros q o o' Ho Hf Hq. left. one_dim Ho.
      * inv Hf. simpl. rewrite Hq. apply orb_true_r.
      * destruct (vstatic i); [|discriminate]. simpl. apply orb_true_iff. right. apply existsb_exists.
        exists o'. split; [eapply nthz_In, Hf|exact Hq].
  - simpl in Es. eapply sreplace_snodup; [| |exact Hn|exact Es].
    + intros o o' Ho _ Hno Hf. one_dim Ho; [|discriminate]. inv Hf. exact Hno.
    + intros q o o' Ho Hf Hq. left. one_dim Ho; [|discriminate]. inv Hf. exact Hq.
  - simpl in Es. eapply sreplace_snodup; [| |exact Hn|exact Es].
    + intros o o' Ho _ Hno Hf. one_dim Ho; [inv Hf; exact Hno|].
      destruct (vstatic st); [|discriminate]. destruct (pick_sigs _ _ _) as [ss|] eqn:Ess; [|discriminate]. inv Hf.
      eapply pick_snodup; [|exact Hno|exact Ess]. apply u64_range.
    + intros q o o' Ho Hf Hq. left. one_dim Ho; [inv Hf; exact Hq|].
      destruct (vstatic st); [|discriminate]. destruct (pick_sigs _ _ _) as [ss|] eqn:Ess; [|discriminate]. inv Hf.
      eapply pick_accept; eauto.
  - simpl in Es. eapply sreplace_snodup; [| |exact Hn|exact Es].
    + intros o o' Ho _ Hno Hf. one_dim Ho; [inv Hf; exact Hno|].
      destruct (vstatic st); [|discriminate]. destruct (vstatic len) as [k|] eqn:Ek; [|discriminate].
      apply vstatic_vzd in Ek. subst.
      destruct (pick_sigs _ _ _) as [ss|] eqn:Ess; [|discriminate]. inv Hf.
      eapply pick_snodup; [|exact Hno|exact Ess]. apply vzd_range.
    + intros q o o' Ho Hf Hq. left. one_dim Ho; [inv Hf; exact Hq|].
      destruct (vstatic st); [|discriminate]. destruct (vstatic len); [|discriminate].
      destruct (pick_sigs _ _ _) as [ss|] eqn:Ess; [|discriminate]. inv Hf.
      eapply pick_accept; eauto.
  - simpl in Es. eapply sreplace_snodup; [| |exact Hn|exact Es].
    + intros o o' Ho _ Hno Hf. one_dim Ho; [inv Hf; exact Hno|].
      destruct (vstatic st); [|discriminate]. destruct (vstatic en); [|discriminate].
      destruct (pick_sigs _ _ _) as [ss|] eqn:Ess; [|discriminate]. inv Hf.
      eapply pick_snodup; [|exact Hno|exact Ess]. apply u64_range.
    + intros q o o' Ho Hf Hq. left. one_dim Ho; [inv Hf; exact Hq|].
      destruct (vstatic st); [|discriminate]. destruct (vstatic en); [|discriminate].
      destruct (pick_sigs _ _ _) as [ss|] eqn:Ess; [|discriminate]. inv Hf.
      eapply pick_accept; eauto.
  - simpl in Es. eapply sreplace_snodup; [| |exact Hn|exact Es].
    + intros o o' Ho _ Hno Hf. one_dim Ho; [inv Hf; exact Hno|].
      destruct (vstatic st); [|discriminate]. destruct (vstatic sr) as [k|] eqn:Ek; [|discriminate].
      apply vstatic_vzd in Ek. subst. destruct (Z.eqb_spec (vzd sr) 0); [discriminate|].
      destruct (pick_sigs _ _ _) as [ss|] eqn:Ess; [|discriminate]. inv Hf.
      eapply pick_snodup; [|exact Hno|exact Ess]. apply Z.div_pos; [apply u64_range|].
      pose proof (vzd_range sr). lia.
    + intros q o o' Ho Hf Hq. left. one_dim Ho; [inv Hf; exact Hq|].
      destruct (vstatic st); [|discriminate]. destruct (vstatic sr); [|discriminate].
      destruct (_ =? 0); [discriminate|].
      destruct (pick_sigs _ _ _) as [ss|] eqn:Ess; [|discriminate]. inv Hf.
      eapply pick_accept; eauto.
  - simpl in Es. eapply sreplace_snodup; [| |exact Hn|exact Es].
    + intros o o' Ho _ Hno Hf. one_dim Ho; [inv Hf; exact Hno|]. injection Hf as <-.
      simpl in *. rewrite !andb_true_iff, !forallb_forall, rev_length in *. destruct Hno as [? [H1 H2]].
      split; [assumption|]. split; intros r Hr; apply in_rev in Hr; auto.
    + intros q o o' Ho Hf Hq. left. one_dim Ho; [inv Hf; exact Hq|]. injection Hf as <-. simpl in *.
      destruct (d =? q); [reflexivity|]. simpl in *. apply existsb_exists in Hq. destruct Hq as (r & Hr & Hq).
      apply in_rev in Hr. apply existsb_exists. eauto.
  - simpl in Es. destruct (_ || _) eqn:Eg; [discriminate|]. apply orb_false_iff in Eg. destruct Eg as [Eg E3].
    apply orb_false_iff in Eg. destruct Eg as [E1 E2].
    eapply sreplace_snodup; [| |exact Hn|exact Es].
    + intros o o' Ho Hsub Hno Hf. one_dim Ho; [|discriminate]. inv Hf.
      assert (K : forall x, negb (x =? d) && any_accept x s = false -> any_accept x r = false).
      { intros x Hx. destruct (any_accept x r) eqn:Ex; [|reflexivity].
        apply snodup_fun in Hno. destruct (Z.eqb_spec x d); [subst; destruct Hno; congruence|].
        simpl in Hx. rewrite Hsub in Hx; [discriminate|]. simpl. rewrite Ex. apply orb_true_r. }
      apply snodup_fun in Hno. simpl. rewrite (K _ E2), (K _ E3), (proj2 Hno).
      rewrite Z.eqb_sym in E1. rewrite E1. reflexivity.
    + intros q o o' Ho Hf Hq. one_dim Ho; [|discriminate]. inv Hf. simpl in Hq. simpl.
      destruct (Z.eqb_spec d q) as [|Hdq]; [auto|]. simpl.
      destruct (Z.eqb_spec M q) as [->|_].
      { right. destruct (Z.eqb_spec q d); [congruence|]. exact E2. }
      destruct (Z.eqb_spec m q) as [->|_].
      { right. destruct (Z.eqb_spec q d); [congruence|]. exact E3. }
      left. exact Hq.
  - simpl in Es. destruct (_ || _) eqn:Eg; [discriminate|]. repeat (apply orb_false_iff in Eg; destruct Eg as [Eg ?E]).
    eapply sreplace_snodup; [| |exact Hn|exact Es].
    + intros o o' Ho Hsub Hno Hf. one_dim Ho; [|discriminate]. inv Hf.
      assert (K : forall x, negb (x =? d) && any_accept x s = false -> any_accept x r = false).
      { intros x Hx. destruct (any_accept x r) eqn:Ex; [|reflexivity].
        apply snodup_fun in Hno. destruct (Z.eqb_spec x d); [subst; destruct Hno; congruence|].
        simpl in Hx. rewrite Hsub in Hx; [discriminate|]. simpl. rewrite Ex. apply orb_true_r. }
      apply snodup_fun in Hno. simpl. rewrite (K _ E), (K _ E0), (K _ E1), (proj2 Hno).
      rewrite (Z.eqb_sym m M), (Z.eqb_sym pd M), (Z.eqb_sym pd m), Eg, E2, E3. reflexivity.
    + intros q o o' Ho Hf Hq. one_dim Ho; [|discriminate]. inv Hf. simpl in Hq. simpl.
      destruct (Z.eqb_spec d q) as [|Hdq]; [auto|]. simpl.
      destruct (Z.eqb_spec M q) as [->|_].
      { right. destruct (Z.eqb_spec q d); [congruence|]. assumption. }
      destruct (Z.eqb_spec m q) as [->|_].
      { right. destruct (Z.eqb_spec q d); [congruence|]. assumption. }
      destruct (Z.eqb_spec pd q) as [->|_].
      { right. destruct (Z.eqb_spec q d); [congruence|]. assumption. }
      left. exact Hq.
  - simpl in Es. destruct (_ || _) eqn:Eg; [discriminate|]. repeat (apply orb_false_iff in Eg; destruct Eg as [Eg ?E]).
    eapply sreplace_snodup; [| |exact Hn|exact Es].
    + intros o o' Ho Hsub Hno Hf. one_dim Ho; [|discriminate].
      destruct (arglen_divmod al (arglen_of ml)) as [[quo rem]|]; [|discriminate]. injection Hf as <-.
      assert (K : forall x, negb (x =? d) && any_accept x s = false -> any_accept x r = false).
      { intros x Hx. destruct (any_accept x r) eqn:Ex; [|reflexivity].
        apply snodup_fun in Hno. destruct (Z.eqb_spec x d); [subst; destruct Hno; congruence|].
        simpl in Hx. rewrite Hsub in Hx; [discriminate|]. simpl. rewrite Ex. apply orb_true_r. }
      apply snodup_fun in Hno. cbn - [W Z.ltb]. rewrite (K _ E), (K _ E0), (K _ E1), (proj2 Hno).
      rewrite (Z.eqb_sym M b), (Z.eqb_sym m b), (Z.eqb_sym m M), Eg, E2, E3.
      rewrite W_eq. reflexivity.
    + intros q o o' Ho Hf Hq. one_dim Ho; [|discriminate].
      destruct (arglen_divmod al (arglen_of ml)) as [[quo rem]|]; [|discriminate]. injection Hf as <-.
      simpl in Hq. simpl.
      destruct (Z.eqb_spec d q) as [|Hdq]; [auto|]. simpl.
      destruct (Z.eqb_spec M q) as [->|_].
      { right. destruct (Z.eqb_spec q d); [congruence|]. assumption. }
      destruct (Z.eqb_spec m q) as [->|_].
      { right. destruct (Z.eqb_spec q d); [congruence|]. assumption. }
      destruct (Z.eqb_spec b q) as [->|_].
      { right. destruct (Z.eqb_spec q d); [congruence|]. assumption. }
      left. simpl in Hq. destruct (any_accept q r); [reflexivity|discriminate].
  - pose proof (merge_peel _ _ _ _ _ Es) as Hp. eapply peel_snodup; [exact Hp|exact Hn| |apply maxc_length, Hn].
    simpl in Es. destruct (_ || _) eqn:Eg; [discriminate|]. apply orb_false_iff in Eg. destruct Eg as [_ E].
    simpl. destruct (Z.eqb_spec d M); [auto|]. destruct (Z.eqb_spec d m); [auto|]. right. exact E.
  - pose proof (zcurve_peel _ _ _ _ _ _ Es) as Hp. eapply peel_snodup; [exact Hp|exact Hn| |apply maxc_length, Hn].
    simpl in Es. destruct (_ && _) eqn:Eg in Es; [|discriminate]. apply andb_true_iff in Eg. destruct Eg as [_ E].
    apply orb_true_iff in E. destruct E as [E|E]; [left; apply mem_In, E|right; apply negb_true_iff, E].
  - simpl in Es. eapply build_snodup; eauto.
  - simpl in Es. destruct (sig_find_dim d [] s) as [o|] eqn:Ef; [|discriminate].
    destruct o as [| |x al r|x rs]; try discriminate.
    destruct (sreplace [d] _ s) as [s1|] eqn:Er in Es; [|discriminate]. inv Es. simpl.
    rewrite (drop_accept _ _ _ Hn Er). simpl. eapply sreplace_snodup; [| |exact Hn|exact Er].
    + intros o o' Ho _ Hno Hf. one_dim Ho; [|discriminate]. inv Hf. apply snodup_fun in Hno. tauto.
    + intros q o o' Ho Hf Hq. left. one_dim Ho; [|discriminate]. inv Hf. simpl. rewrite Hq. apply orb_true_r.
  - simpl in Es. destruct (_ && _) eqn:Eg in Es; [|discriminate]. inv Es. apply rename_snodup; assumption.
  - destruct Hok.
Qed.
