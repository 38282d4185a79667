(** * Facts about signatures: the dimensions along a path, and how views change them *)

From Verif Require Export Refine.

Lemma sig_ind' (P : sig -> Prop)
  (HS : forall c, P (SScalar c)) (HV : P SVoid)
  (HF : forall d a r, P r -> P (SFun d a r))
  (HD : forall d rs, Forall P rs -> P (SDep d rs)) : forall s, P s.
Proof.
  fix IH 1. intros [c| |d a r|d rs].
  - apply HS. - apply HV. - apply HF, IH.
  - apply HD. induction rs as [|r rs IHrs]; constructor; [apply IH|exact IHrs].
Qed.

Lemma snodup_dep d rs k r : snodup (SDep d rs) = true -> nthz rs k = Some r ->
  any_accept d r = false /\ snodup r = true.
Proof.
  simpl. rewrite !andb_true_iff, !forallb_forall. intros [_ [H1 H2]] E. apply nthz_In in E.
  specialize (H1 _ E). apply negb_true_iff in H1. auto.
Qed.

Lemma snodup_fun d a r : snodup (SFun d a r) = true -> any_accept d r = false /\ snodup r = true.
Proof. simpl. rewrite andb_true_iff, negb_true_iff. auto. Qed.

(** ** Paths *)

Lemma spath_dep d rs a :
  spath (SDep d rs) a =
  match nthz rs (a d) with
  | Some r => option_map (cons (d, Some (Z.of_nat (List.length rs)))) (spath r a)
  | None => None
  end.
Proof. simpl. rewrite nthz_map. destruct (nthz rs (a d)); reflexivity. Qed.

(** Dimensions on a path are accepted by the signature. *)
Lemma spath_accept s a p : spath s a = Some p -> forall e, In e p -> any_accept (fst e) s = true.
Proof.
  revert p. induction s as [c| |d al r IH|d rs IH] using sig_ind'; intros p E e He.
  - inv E. destruct He.
  - inv E. destruct He.
  - simpl in E. destruct (spath r a) as [p'|]; [|discriminate]. inv E. simpl.
    destruct He as [<-|He]; [rewrite Z.eqb_refl; reflexivity|].
    rewrite (IH _ eq_refl _ He), orb_true_r. reflexivity.
  - rewrite spath_dep in E. destruct (nthz rs (a d)) as [r|] eqn:Er; [|discriminate].
    destruct (spath r a) as [p'|] eqn:Ep; [|discriminate]. inv E. simpl.
    destruct He as [<-|He]; [rewrite Z.eqb_refl; reflexivity|].
    apply orb_true_iff. right. apply existsb_exists. exists r. split; [eapply nthz_In, Er|].
    eapply Forall_nthz in IH; [|exact Er]. eapply IH; eauto.
Qed.

Lemma spath_not_accept s a p q : spath s a = Some p -> any_accept q s = false -> ~ In q (map fst p).
Proof.
  intros E Hq Hin. apply in_map_iff in Hin. destruct Hin as (e & <- & He).
  rewrite (spath_accept _ _ _ E _ He) in Hq. discriminate.
Qed.

Lemma spath_nodup s a p : snodup s = true -> spath s a = Some p -> NoDup (map fst p).
Proof.
  revert p. induction s as [c| |d al r IH|d rs IH] using sig_ind'; intros p Hn E.
  - inv E. constructor.
  - inv E. constructor.
  - simpl in E. destruct (spath r a) as [p'|] eqn:Ep; [|discriminate]. inv E. simpl.
    apply snodup_fun in Hn. destruct Hn as [Hd Hr]. constructor; [eapply spath_not_accept; eauto|auto].
  - rewrite spath_dep in E. destruct (nthz rs (a d)) as [r|] eqn:Er; [|discriminate].
    destruct (spath r a) as [p'|] eqn:Ep; [|discriminate]. inv E. simpl.
    destruct (snodup_dep _ _ _ _ Hn Er) as [Hd Hr].
    constructor; [eapply spath_not_accept; eauto|]. eapply Forall_nthz in IH; [|exact Er]. eauto.
Qed.

(** The indices of component choices on a path are in range. *)
Lemma spath_dep_range s a p d n : spath s a = Some p -> In (d, Some n) p -> 0 <= a d < n.
Proof.
  revert p. induction s as [c| |d' al r IH|d' rs IH] using sig_ind'; intros p E He.
  - inv E. destruct He.
  - inv E. destruct He.
  - simpl in E. destruct (spath r a) as [p'|]; [|discriminate]. inv E.
    destruct He as [He|He]; [discriminate|eauto].
  - rewrite spath_dep in E. destruct (nthz rs (a d')) as [r|] eqn:Er; [|discriminate].
    destruct (spath r a) as [p'|] eqn:Ep; [|discriminate]. inv E.
    destruct He as [He|He]; [inv He; eapply nthz_Some_range, Er|].
    eapply Forall_nthz in IH; [|exact Er]. eauto.
Qed.

(** A path only depends on the indices of the tuple dimensions it goes through. *)
Lemma spath_ext s a a' p :
  spath s a = Some p -> (forall d n, In (d, Some n) p -> a' d = a d) -> spath s a' = Some p.
Proof.
  revert p. induction s as [c| |d al r IH|d rs IH] using sig_ind'; intros p E H.
  - exact E.
  - exact E.
  - simpl in *. destruct (spath r a) as [p'|]; [|discriminate]. inv E.
    rewrite (IH _ eq_refl); [reflexivity|]. intros; eapply H; right; eauto.
  - rewrite spath_dep in *. destruct (nthz rs (a d)) as [r|] eqn:Er; [|discriminate].
    destruct (spath r a) as [p'|] eqn:Ep; [|discriminate]. inv E.
    rewrite (H d _ (or_introl eq_refl)), Er. eapply Forall_nthz in IH; [|exact Er].
    rewrite (IH _ Ep); [reflexivity|]. intros; eapply H; right; eauto.
Qed.

Lemma spath_ext_accept s a a' :
  (forall d, any_accept d s = true -> a' d = a d) -> spath s a' = spath s a.
Proof.
  induction s as [c| |d al r IH|d rs IH] using sig_ind'; intros H; try reflexivity.
  - simpl. rewrite IH; [reflexivity|]. intros q Hq. apply H. simpl. rewrite Hq, orb_true_r. reflexivity.
  - rewrite !spath_dep. rewrite (H d) by (simpl; rewrite Z.eqb_refl; reflexivity).
    destruct (nthz rs (a d)) as [r|] eqn:Er; [|reflexivity].
    eapply Forall_nthz in IH; [|exact Er]. rewrite IH; [reflexivity|].
    intros q Hq. apply H. simpl. apply orb_true_iff. right. apply existsb_exists.
    exists r. split; [eapply nthz_In, Er|exact Hq].
Qed.

(** ** Views that replace one dimension by others *)

Definition pm (g : option Z -> list (dim * option Z)) (d : dim) (p : list (dim * option Z)) :=
  flat_map (fun e => if fst e =? d then g (snd e) else [e]) p.

Lemma pm_id g d p : ~ In d (map fst p) -> pm g d p = p.
Proof.
  induction p as [|[q n] p IH]; simpl; [reflexivity|]. intros H.
  destruct (Z.eqb_spec q d); [subst; tauto|]. simpl. f_equal. apply IH. tauto.
Qed.

Lemma in_pm g d p e :
  In e (pm g d p) <-> (In e p /\ fst e <> d) \/ (exists n, In (d, n) p /\ In e (g n)).
Proof.
  unfold pm. rewrite in_flat_map. split.
  - intros ([q n] & Hin & He). simpl in He. destruct (Z.eqb_spec q d).
    + subst. right. eauto.
    + destruct He as [<-|[]]. left. auto.
  - intros [[Hin Hn]|(n & Hin & He)].
    + exists e. split; [exact Hin|]. destruct e as [q k]. simpl in *. destruct (Z.eqb_spec q d); [contradiction|simpl; auto].
    + exists (d, n). split; [exact Hin|]. simpl. rewrite Z.eqb_refl. exact He.
Qed.

(** The lemma behind all single-dimension views, from the view to its sub-structure. *)
Lemma sreplace_path d f g (Q : option Z -> Prop) whole a a' s s' p :
  (forall q, q <> d -> a' q = a q) ->
  (forall o o' po, (exists al r, o = SFun d al r) \/ (exists rs, o = SDep d rs) -> snodup o = true ->
     f o = Some o' -> spath o' a = Some po -> incl po whole ->
     exists po', spath o a' = Some po' /\ po = pm g d po' /\ forall n, In (d, n) po' -> Q n) ->
  snodup s = true -> sreplace [d] f s = Some s' -> spath s' a = Some p -> incl p whole ->
  exists p', spath s a' = Some p' /\ p = pm g d p' /\ forall n, In (d, n) p' -> Q n.
Proof.
  intros Ha Hf. revert s' p. induction s as [c| |q al r IH|q rs IH] using sig_ind'; intros s' p Hn Es Ep Hw.
  - simpl in *. inv Es. inv Ep. exists []. split; [reflexivity|]. split; [reflexivity|intros ? []].
  - simpl in *. inv Es. inv Ep. exists []. split; [reflexivity|]. split; [reflexivity|intros ? []].
  - simpl in Es. rewrite orb_false_r in Es. destruct (Z.eqb_spec q d) as [->|Hq].
    + eapply Hf; [left; eauto|exact Hn|exact Es|exact Ep|exact Hw].
    + destruct (sreplace [d] f r) as [r'|] eqn:Er; [|discriminate]. inv Es. simpl in Ep.
      destruct (spath r' a) as [pr|] eqn:Epr; [|discriminate]. inv Ep.
      apply incl_cons_inv in Hw. destruct Hw as [Hw1 Hw2].
      apply snodup_fun in Hn. destruct (IH _ _ (proj2 Hn) eq_refl Epr Hw2) as (p' & Ep' & -> & HQ).
      exists ((q, None) :: p'). simpl. rewrite Ep'. simpl. destruct (Z.eqb_spec q d); [contradiction|].
      split; [reflexivity|]. split; [reflexivity|]. intros n0 [H|H]; [inv H; contradiction|auto].
  - simpl in Es. rewrite orb_false_r in Es. destruct (Z.eqb_spec q d) as [->|Hq].
    + eapply Hf; [right; eauto|exact Hn|exact Es|exact Ep|exact Hw].
    + fold (omap (sreplace [d] f)) in Es. destruct (omap (sreplace [d] f) rs) as [rs'|] eqn:Er; [|discriminate].
      inv Es. rewrite spath_dep in Ep. destruct (nthz rs' (a q)) as [r'|] eqn:Er'; [|discriminate].
      destruct (spath r' a) as [pr|] eqn:Epr; [|discriminate]. inv Ep.
      apply incl_cons_inv in Hw. destruct Hw as [Hw1 Hw2].
      pose proof (omap_length _ _ _ Er) as Hlen. apply omap_Some_Forall2 in Er.
      pose proof (Forall2_nthz _ _ _ (a q) Er) as Hnth. rewrite Er' in Hnth.
      destruct (nthz rs (a q)) as [r|] eqn:Enr; [|contradiction].
      destruct (snodup_dep _ _ _ _ Hn Enr) as [_ Hr].
      eapply Forall_nthz in IH; [|exact Enr]. destruct (IH _ _ Hr Hnth Epr Hw2) as (p' & Ep' & -> & HQ).
      exists ((q, Some (Z.of_nat (List.length rs))) :: p'). rewrite spath_dep, Ha, Enr, Ep' by exact Hq.
      simpl. destruct (Z.eqb_spec q d); [contradiction|]. simpl. rewrite Hlen.
      split; [reflexivity|]. split; [reflexivity|]. intros n0 [H|H]; [inv H; contradiction|auto].
Qed.

(** The same from the sub-structure to the view. *)
Lemma sreplace_path_back d f g (Q : option Z -> Prop) whole a a' s s' p' :
  (forall q, q <> d -> a' q = a q) ->
  (forall o o' po', (exists al r, o = SFun d al r) \/ (exists rs, o = SDep d rs) -> snodup o = true ->
     f o = Some o' -> spath o a' = Some po' -> incl po' whole ->
     spath o' a = Some (pm g d po') /\ forall n, In (d, n) po' -> Q n) ->
  snodup s = true -> sreplace [d] f s = Some s' -> spath s a' = Some p' -> incl p' whole ->
  spath s' a = Some (pm g d p') /\ forall n, In (d, n) p' -> Q n.
Proof.
  intros Ha Hf. revert s' p'. induction s as [c| |q al r IH|q rs IH] using sig_ind'; intros s' p' Hn Es Ep Hw.
  - simpl in *. inv Es. inv Ep. split; [reflexivity|intros ? []].
  - simpl in *. inv Es. inv Ep. split; [reflexivity|intros ? []].
  - simpl in Es. rewrite orb_false_r in Es. destruct (Z.eqb_spec q d) as [->|Hq].
    + eapply Hf; [left; eauto|exact Hn|exact Es|exact Ep|exact Hw].
    + destruct (sreplace [d] f r) as [r'|] eqn:Er; [|discriminate]. inv Es. simpl in Ep.
      destruct (spath r a') as [pr|] eqn:Epr; [|discriminate]. inv Ep.
      apply incl_cons_inv in Hw. destruct Hw as [Hw1 Hw2].
      apply snodup_fun in Hn. destruct (IH _ _ (proj2 Hn) eq_refl eq_refl Hw2) as [E HQ].
      simpl. rewrite E. simpl. destruct (Z.eqb_spec q d); [contradiction|].
      split; [reflexivity|]. intros n0 [H|H]; [inv H; contradiction|auto].
  - simpl in Es. rewrite orb_false_r in Es. destruct (Z.eqb_spec q d) as [->|Hq].
    + eapply Hf; [right; eauto|exact Hn|exact Es|exact Ep|exact Hw].
    + fold (omap (sreplace [d] f)) in Es. destruct (omap (sreplace [d] f) rs) as [rs'|] eqn:Er; [|discriminate].
      inv Es. rewrite spath_dep in Ep. rewrite Ha in Ep by exact Hq.
      destruct (nthz rs (a q)) as [r|] eqn:Er'; [|discriminate].
      destruct (spath r a') as [pr|] eqn:Epr; [|discriminate]. inv Ep.
      apply incl_cons_inv in Hw. destruct Hw as [Hw1 Hw2].
      pose proof (omap_length _ _ _ Er) as Hlen. apply omap_Some_Forall2 in Er.
      pose proof (Forall2_nthz _ _ _ (a q) Er) as Hnth. rewrite Er' in Hnth.
      destruct (nthz rs' (a q)) as [r'|] eqn:Enr; [|contradiction].
      destruct (snodup_dep _ _ _ _ Hn Er') as [_ Hr].
      eapply Forall_nthz in IH; [|exact Er']. destruct (IH _ _ Hr Hnth Epr Hw2) as [E HQ].
      rewrite spath_dep, Enr, E. simpl.
      destruct (Z.eqb_spec q d); [contradiction|]. simpl. rewrite Hlen. split; [reflexivity|].
      intros n0 [H|H]; [inv H; contradiction|auto].
Qed.

Definition sreplace_path_at d f g Q a a' s s' p Hn Es Ep Ha Hf :=
  sreplace_path d f g Q p a a' s s' p Ha Hf Hn Es Ep (incl_refl p).
Definition sreplace_path_back_at d f g Q a a' s s' p' Hn Es Ep Ha Hf :=
  sreplace_path_back d f g Q p' a a' s s' p' Ha Hf Hn Es Ep (incl_refl p').

(** What a replacement of one dimension does to the sub-path below it. *)
Lemma spath_below d a a' r : (forall q, q <> d -> a' q = a q) -> any_accept d r = false ->
  spath r a' = spath r a.
Proof.
  intros Ha Hd. apply spath_ext_accept. intros q Hq. apply Ha. intros ->. congruence.
Qed.

Lemma pm_below g d a r p : any_accept d r = false -> spath r a = Some p -> pm g d p = p.
Proof. intros Hd E. apply pm_id. eapply spath_not_accept; eauto. Qed.

Lemma pm_cons_hit g d n p : ~ In d (map fst p) -> pm g d ((d, n) :: p) = g n ++ p.
Proof. intros H. unfold pm. simpl. rewrite Z.eqb_refl. fold (pm g d p). rewrite pm_id by exact H. reflexivity. Qed.

(** ** Which dimensions a replacement accepts *)

Lemma sreplace_accept ds f s s' (X : dim -> Prop) q :
  (forall o o', (exists d al r, In d ds /\ o = SFun d al r) \/ (exists d rs, In d ds /\ o = SDep d rs) ->
     f o = Some o' -> any_accept q o' = true -> any_accept q o = true \/ X q) ->
  sreplace ds f s = Some s' -> any_accept q s' = true -> any_accept q s = true \/ X q.
Proof.
  intros Hf. revert s'. induction s as [c| |d al r IH|d rs IH] using sig_ind'; intros s' Es Hq.
  - simpl in Es. inv Es. discriminate.
  - simpl in Es. inv Es. discriminate.
  - simpl in Es. destruct (mem d ds) eqn:Em.
    + eapply Hf; eauto. left. exists d, al, r. split; [apply mem_In, Em|reflexivity].
    + destruct (sreplace ds f r) as [r'|] eqn:Er; [|discriminate]. inv Es. simpl in *.
      destruct (d =? q); [auto|]. simpl in *. eauto.
  - simpl in Es. destruct (mem d ds) eqn:Em.
    + eapply Hf; eauto. right. exists d, rs. split; [apply mem_In, Em|reflexivity].
    + fold (omap (sreplace ds f)) in Es. destruct (omap (sreplace ds f) rs) as [rs'|] eqn:Er; [|discriminate].
      inv Es. simpl in *. destruct (d =? q); [auto|]. simpl in *.
      apply existsb_exists in Hq. destruct Hq as (r' & Hin & Hq).
      apply (omap_Some_In _ _ _ Er) in Hin. destruct Hin as (r & Hin & Er').
      rewrite Forall_forall in IH. destruct (IH _ Hin _ Er' Hq) as [H|H]; [left|right; exact H].
      apply existsb_exists. eauto.
Qed.

Lemma sreplace_snodup ds f s s' :
  (forall o o', (exists d al r, In d ds /\ o = SFun d al r) \/ (exists d rs, In d ds /\ o = SDep d rs) ->
     (forall q, any_accept q o = true -> any_accept q s = true) ->
     snodup o = true -> f o = Some o' -> snodup o' = true) ->
  (forall q o o', (exists d al r, In d ds /\ o = SFun d al r) \/ (exists d rs, In d ds /\ o = SDep d rs) ->
     f o = Some o' -> any_accept q o' = true -> any_accept q o = true \/ any_accept q s = false) ->
  snodup s = true -> sreplace ds f s = Some s' -> snodup s' = true.
Proof.
  intros Hf Hx. 
  assert (G : forall x x', (forall q, any_accept q x = true -> any_accept q s = true) ->
     snodup x = true -> sreplace ds f x = Some x' -> snodup x' = true).
  { induction x as [c| |d al r IH|d rs IH] using sig_ind'; intros x' Hs Hn Es.
    - simpl in Es. inv Es. reflexivity.
    - simpl in Es. inv Es. reflexivity.
    - simpl in Es. destruct (mem d ds) eqn:Em.
      + eapply Hf; eauto. left. exists d, al, r. split; [apply mem_In, Em|reflexivity].
      + destruct (sreplace ds f r) as [r'|] eqn:Er; [|discriminate]. inv Es.
        apply snodup_fun in Hn. destruct Hn as [Hd Hr]. simpl. rewrite (IH r'); auto.
        2:{ intros q Hq. apply Hs. simpl. rewrite Hq, orb_true_r. reflexivity. }
        destruct (any_accept d r') eqn:Ed; [|reflexivity].
        eapply (sreplace_accept ds f r r' (fun q => any_accept q s = false)) in Ed; eauto.
        rewrite Hd, Hs in Ed by (simpl; rewrite Z.eqb_refl; reflexivity). destruct Ed; discriminate.
    - simpl in Es. destruct (mem d ds) eqn:Em.
      + eapply Hf; eauto. right. exists d, rs. split; [apply mem_In, Em|reflexivity].
      + fold (omap (sreplace ds f)) in Es. destruct (omap (sreplace ds f) rs) as [rs'|] eqn:Er; [|discriminate].
        inv Es. simpl in Hn. rewrite !andb_true_iff, !forallb_forall in Hn. destruct Hn as [Hw [Hd Hr]].
        simpl. rewrite !andb_true_iff, !forallb_forall, (omap_length _ _ _ Er). split; [exact Hw|].
        split; intros r' Hin; apply (omap_Some_In _ _ _ Er) in Hin; destruct Hin as (r & Hin & Er').
        * specialize (Hd _ Hin). apply negb_true_iff in Hd. apply negb_true_iff.
          destruct (any_accept d r') eqn:Ed; [|reflexivity].
          eapply (sreplace_accept ds f r r' (fun q => any_accept q s = false)) in Ed; eauto.
          rewrite Hd, Hs in Ed by (simpl; rewrite Z.eqb_refl; reflexivity). destruct Ed; discriminate.
        * rewrite Forall_forall in IH. eapply (IH _ Hin); eauto.
          intros q Hq. apply Hs. simpl. apply orb_true_iff. right. apply existsb_exists. eauto. }
  intros Hn Es. eapply G; eauto.
Qed.

(** ** Views that replace several dimensions by one *)

(** [peel d ds n s s']: [s'] is [s] with the first [n] dimensions of [ds] on every path removed,
    the last of them replaced by [d]. *)
Inductive peel (d : dim) (ds : list dim) : nat -> sig -> sig -> Prop :=
| peel_scalar n c : peel d ds n (SScalar c) (SScalar c)
| peel_void n : peel d ds n SVoid SVoid
| peel_skip n q a r r' : ~ In q ds -> peel d ds n r r' -> peel d ds n (SFun q a r) (SFun q a r')
| peel_dep n q rs rs' : ~ In q ds -> List.length rs' = List.length rs ->
    (forall k r r', nthz rs k = Some r -> nthz rs' k = Some r' -> peel d ds n r r') ->
    peel d ds n (SDep q rs) (SDep q rs')
| peel_last q a a' r : In q ds -> peel d ds 1 (SFun q a r) (SFun d a' r)
| peel_more n q a r r' : In q ds -> peel d ds (S n) r r' -> peel d ds (S (S n)) (SFun q a r) r'.

Lemma mem_false_In d ds : mem d ds = false <-> ~ In d ds.
Proof. rewrite <- mem_In. destruct (mem d ds); split; congruence. Qed.

Lemma sreplace_peel d ds es n f s s' :
  (forall q, In q es <-> In q ds) ->
  (forall o o', f o = Some o' -> (exists q al r, In q ds /\ o = SFun q al r) \/ (exists q rs, In q ds /\ o = SDep q rs) -> peel d ds n o o') ->
  sreplace es f s = Some s' -> peel d ds n s s'.
Proof.
  intros He Hf. revert s'. induction s as [c| |q al r IH|q rs IH] using sig_ind'; intros s' Es.
  - inv Es. constructor.
  - inv Es. constructor.
  - simpl in Es. destruct (mem q es) eqn:Em.
    + apply Hf; [exact Es|]. left. exists q, al, r. apply mem_In, He in Em. auto.
    + destruct (sreplace es f r) as [r'|] eqn:Er; [|discriminate]. inv Es.
      apply peel_skip; [|auto]. rewrite <- He. apply mem_false_In, Em.
  - simpl in Es. destruct (mem q es) eqn:Em.
    + apply Hf; [exact Es|]. right. exists q, rs. apply mem_In, He in Em. auto.
    + fold (omap (sreplace es f)) in Es. destruct (omap (sreplace es f) rs) as [rs'|] eqn:Er; [|discriminate].
      inv Es. apply peel_dep.
      * rewrite <- He. apply mem_false_In, Em.
      * eapply omap_length, Er.
      * intros k r r' Hr Hr'. apply omap_Some_Forall2 in Er.
        pose proof (Forall2_nthz _ _ _ k Er) as Hn. rewrite Hr, Hr' in Hn.
        eapply Forall_nthz in IH; [|exact Hr]. auto.
Qed.

Lemma zc_replace_peel d ds n : forall acc o o',
  zc_replace n acc d ds o = Some o' ->
  (exists q al r, In q ds /\ o = SFun q al r) \/ (exists q rs, In q ds /\ o = SDep q rs) -> peel d ds n o o'.
Proof.
  induction n as [|n IH]; intros acc o o' E Ho.
  - destruct o; discriminate.
  - destruct Ho as [(q & al & r & Hq & ->)|(q & rs & Hq & ->)].
    + simpl in E. destruct n as [|n].
      * inv E. apply peel_last, Hq.
      * apply peel_more; [exact Hq|]. eapply sreplace_peel; [reflexivity| |exact E].
        intros x x' Hx Hd. eapply IH; eauto.
    + simpl in E. destruct n; discriminate.
Qed.

Lemma zcurve_peel sl gl d ds s s' :
  view_sig (VZCurve sl gl d ds) s = Some s' -> peel d ds (List.length ds) s s'.
Proof.
  simpl. destruct (_ && _); [|discriminate]. intros E. eapply sreplace_peel; [reflexivity| |exact E].
  intros o o' Hf Ho. eapply zc_replace_peel; eauto.
Qed.

Lemma merge_peel M m d s s' : view_sig (VMerge M m d) s = Some s' -> peel d [M; m] 2 s s'.
Proof.
  simpl. destruct (_ || _); [discriminate|]. intros E. eapply sreplace_peel; [reflexivity| |exact E].
  intros o o' Hf [(q & al & r & Hq & ->)|(q & rs & Hq & ->)]; [|discriminate].
  apply peel_more; [exact Hq|]. eapply sreplace_peel; [|  |exact Hf].
  - intros x. simpl. tauto.
  - intros x x' Hx [(q' & al' & r' & Hq' & ->)|(q' & rs' & Hq' & ->)]; [|discriminate].
    simpl in Hx. destruct (q =? q'); [discriminate|]. inv Hx. apply peel_last, Hq'.
Qed.

(** The largest number of dimensions of [ds] along a path. *)
Fixpoint maxc (ds : list dim) (s : sig) : nat :=
  match s with
  | SScalar _ | SVoid => 0%nat
  | SFun d _ r => ((if mem d ds then 1 else 0) + maxc ds r)%nat
  | SDep d rs => ((if mem d ds then 1 else 0) + fold_right Nat.max 0 (map (maxc ds) rs))%nat
  end.

Lemma fold_max_In x l : In x l -> (x <= fold_right Nat.max 0 l)%nat.
Proof. induction l as [|y l IH]; simpl; [intros []|]. intros [->|H]; [lia|]. specialize (IH H). lia. Qed.

Lemma fold_max_le n l : (forall x, In x l -> (x <= n)%nat) -> (fold_right Nat.max 0 l <= n)%nat.
Proof. induction l as [|y l IH]; simpl; intros H; [lia|]. apply Nat.max_lub; [apply H; auto|apply IH; auto]. Qed.

Lemma maxc_0 ds s q : maxc ds s = 0%nat -> In q ds -> any_accept q s = false.
Proof.
  intros Hm Hq. induction s as [c| |d al r IH|d rs IH] using sig_ind'; try reflexivity; simpl in *.
  - destruct (mem d ds) eqn:Ed; [lia|]. destruct (Z.eqb_spec d q); [subst; apply mem_false_In in Ed; contradiction|].
    apply IH. lia.
  - destruct (mem d ds) eqn:Ed; [lia|]. destruct (Z.eqb_spec d q); [subst; apply mem_false_In in Ed; contradiction|].
    simpl. destruct (existsb (any_accept q) rs) eqn:Ex; [|reflexivity]. apply existsb_exists in Ex.
    destruct Ex as (r & Hr & Ex). rewrite Forall_forall in IH. rewrite IH in Ex; [discriminate|exact Hr|].
    pose proof (fold_max_In (maxc ds r) (map (maxc ds) rs) (in_map _ _ _ Hr)). lia.
Qed.

Lemma filter_length_mono {A} (f g : A -> bool) l :
  (forall x, In x l -> f x = true -> g x = true) ->
  (List.length (filter f l) <= List.length (filter g l))%nat.
Proof.
  induction l as [|x l IH]; simpl; intros H; [lia|].
  assert (IH' : (List.length (filter f l) <= List.length (filter g l))%nat) by (apply IH; auto).
  destruct (f x) eqn:Ef.
  - rewrite (H x) by auto. simpl. lia.
  - destruct (g x); simpl; lia.
Qed.

Lemma filter_length_lt {A} (f g : A -> bool) l x :
  In x l -> f x = false -> g x = true -> (forall y, In y l -> f y = true -> g y = true) ->
  (S (List.length (filter f l)) <= List.length (filter g l))%nat.
Proof.
  induction l as [|y l IH]; simpl; intros Hx Hf Hg H; [destruct Hx|].
  destruct Hx as [->|Hx].
  - rewrite Hf, Hg. simpl. apply le_n_S, filter_length_mono. auto.
  - specialize (IH Hx Hf Hg (fun z Hz => H z (or_intror Hz))).
    destruct (f y) eqn:Ef; [rewrite (H y) by auto; simpl; lia|destruct (g y); simpl; lia].
Qed.

Lemma maxc_le ds s : snodup s = true -> (maxc ds s <= List.length (filter (fun q => any_accept q s) ds))%nat.
Proof.
  induction s as [c| |d al r IH|d rs IH] using sig_ind'; intros Hn; try (simpl; lia).
  - apply snodup_fun in Hn. destruct Hn as [Hd Hr]. specialize (IH Hr). simpl.
    destruct (mem d ds) eqn:Ed.
    + apply mem_In in Ed. etransitivity; [apply le_n_S, IH|].
      apply filter_length_lt with (x := d); auto.
      * rewrite Z.eqb_refl. reflexivity.
      * intros y _ Hy. rewrite Hy. apply orb_true_r.
    + etransitivity; [apply IH|]. apply filter_length_mono. intros y _ Hy. rewrite Hy. apply orb_true_r.
  - simpl in Hn. rewrite !andb_true_iff, !forallb_forall in Hn. destruct Hn as [_ [Hd Hr]]. simpl.
    assert (G : (fold_right Nat.max 0 (map (maxc ds) rs)
                 <= List.length (filter (fun q => existsb (any_accept q) rs) ds))%nat).
    { apply fold_max_le. intros x Hx. apply in_map_iff in Hx. destruct Hx as (r & <- & Hin).
      rewrite Forall_forall in IH. etransitivity; [apply IH; auto|].
      apply filter_length_mono. intros y _ Hy. apply existsb_exists. eauto. }
    destruct (mem d ds) eqn:Ed.
    + apply mem_In in Ed. etransitivity; [apply le_n_S, G|].
      apply filter_length_lt with (x := d); auto.
      * destruct (existsb (any_accept d) rs) eqn:Ex; [|reflexivity]. apply existsb_exists in Ex.
        destruct Ex as (r & Hin & Hx). specialize (Hd _ Hin). rewrite Hx in Hd. discriminate.
      * rewrite Z.eqb_refl. reflexivity.
      * intros y _ Hy. rewrite Hy. apply orb_true_r.
    + etransitivity; [apply G|]. apply filter_length_mono. intros y _ Hy. rewrite Hy. apply orb_true_r.
Qed.

Lemma filter_length_le {A} (f : A -> bool) l : (List.length (filter f l) <= List.length l)%nat.
Proof. induction l as [|x l IH]; simpl; [lia|]. destruct (f x); simpl; lia. Qed.

Lemma maxc_length ds s : snodup s = true -> (maxc ds s <= List.length ds)%nat.
Proof. intros H. etransitivity; [apply maxc_le, H|apply filter_length_le]. Qed.

Definition outside (ds : list dim) (p : list (dim * option Z)) := filter (fun e => negb (mem (fst e) ds)) p.
Definition inside (ds : list dim) (p : list (dim * option Z)) := filter (fun e => mem (fst e) ds) p.

(** The path of a view that peels [ds], against the path of its sub-structure. *)
Definition peeled (d : dim) (ds : list dim) (n : nat) (p' p : list (dim * option Z)) : Prop :=
  Permutation p ((if Nat.eqb (List.length (inside ds p')) n then [(d, None)] else []) ++ outside ds p')
  /\ (forall q k, In (q, k) p' -> In q ds -> k = None).

Lemma inside_nil ds p : (forall q, In q ds -> ~ In q (map fst p)) -> inside ds p = [] /\ outside ds p = p.
Proof.
  induction p as [|[q k] p IH]; simpl; intros H; [auto|].
  assert (Hq : mem q ds = false).
  { apply mem_false_In. intros Hin. apply (H q Hin). auto. }
  rewrite Hq. simpl. destruct IH as [-> ->]; [|auto].
  intros x Hx Hin. apply (H x Hx). auto.
Qed.

Lemma peel_below ds a a' r : (forall q, ~ In q ds -> a' q = a q) -> maxc ds r = 0%nat ->
  spath r a' = spath r a.
Proof.
  intros Ha Hm. apply spath_ext_accept. intros q Hq. apply Ha. intros Hin.
  rewrite (maxc_0 _ _ _ Hm Hin) in Hq. discriminate.
Qed.

Lemma peel_path d ds a a' : forall s s' n p,
  peel d ds n s s' -> (0 < n)%nat -> (maxc ds s <= n)%nat -> (forall q, ~ In q ds -> a' q = a q) ->
  spath s' a = Some p -> exists p', spath s a' = Some p' /\ peeled d ds n p' p.
Proof.
  induction s as [c| |q al r IH|q rs IH] using sig_ind'; intros s' n p Hp Hn0 Hm Ha E.
  - inversion Hp; subst. inv E. exists []. split; [reflexivity|]. split; [|intros ? ? []].
    simpl. destruct n; [lia|]. apply Permutation_refl.
  - inversion Hp; subst. inv E. exists []. split; [reflexivity|]. split; [|intros ? ? []].
    simpl. destruct n; [lia|]. apply Permutation_refl.
  - inversion Hp as [| |n0 q0 a0 r0 r' Hq Hr| |q0 a0 a0' r0 Hq|n0 q0 a0 r0 r' Hq Hr]; subst.
    + simpl in E. destruct (spath r' a) as [pr|] eqn:Er; [|discriminate]. inv E.
      simpl in Hm. destruct (mem q ds) eqn:Eq; [apply mem_In in Eq; contradiction|].
      destruct (IH _ _ _ Hr Hn0 Hm Ha Er) as (p' & Ep' & [Hperm Hk]).
      exists ((q, None) :: p'). simpl. rewrite Ep'. split; [reflexivity|]. split.
      * simpl. rewrite Eq. simpl. rewrite <- Permutation_middle. apply perm_skip, Hperm.
      * intros x k [Hx|Hx]; [congruence|eauto].
    + simpl in E. destruct (spath r a) as [pr|] eqn:Er; [|discriminate]. inv E.
      simpl in Hm. rewrite (proj2 (mem_In q ds) Hq) in Hm. assert (Hm0 : maxc ds r = 0%nat) by lia.
      exists ((q, None) :: pr). simpl. rewrite (peel_below ds a a' r Ha Hm0), Er. split; [reflexivity|].
      assert (Hno : forall x, In x ds -> ~ In x (map fst pr)).
      { intros x Hx. eapply spath_not_accept; [exact Er|]. eapply maxc_0; eauto. }
      destruct (inside_nil ds pr Hno) as [Ei Eo]. split.
      * simpl. rewrite (proj2 (mem_In q ds) Hq). simpl. rewrite Ei, Eo. simpl. apply Permutation_refl.
      * intros x k [Hx|Hx] Hds; [congruence|]. exfalso. apply (Hno x Hds).
        apply in_map_iff. exists (x, k). auto.
    + simpl in Hm. rewrite (proj2 (mem_In q ds) Hq) in Hm.
      destruct (IH _ _ _ Hr (Nat.lt_0_succ _) (le_S_n _ _ Hm) Ha E) as (p' & Ep' & [Hperm Hk]).
      exists ((q, None) :: p'). simpl. rewrite Ep'. split; [reflexivity|]. split.
      * simpl. rewrite (proj2 (mem_In q ds) Hq). simpl. exact Hperm.
      * intros x k [Hx|Hx]; [congruence|eauto].
  - inversion Hp as [| | |n0 q0 rs0 rs' Hq Hlen Hr| |]; subst.
    rewrite spath_dep in E. destruct (nthz rs' (a q)) as [r'|] eqn:Er'; [|discriminate].
    destruct (spath r' a) as [pr|] eqn:Er; [|discriminate]. inv E.
    destruct (nthz_range_Some rs (a q)) as [r Ern].
    { apply nthz_Some_range in Er'. lia. }
    simpl in Hm. destruct (mem q ds) eqn:Eq; [apply mem_In in Eq; contradiction|].
    eapply Forall_nthz in IH; [|exact Ern].
    assert (Hm' : (maxc ds r <= n)%nat).
    { pose proof (fold_max_In (maxc ds r) (map (maxc ds) rs) (in_map _ _ _ (nthz_In _ _ _ Ern))). lia. }
    destruct (IH _ _ _ (Hr _ _ _ Ern Er') Hn0 Hm' Ha Er) as (p' & Ep' & [Hperm Hk]).
    exists ((q, Some (Z.of_nat (List.length rs))) :: p'). rewrite spath_dep, Ha, Ern, Ep' by exact Hq.
    split; [reflexivity|]. split.
    + simpl. rewrite Eq. simpl. rewrite <- Permutation_middle, Hlen. apply perm_skip, Hperm.
    + intros x k [Hx|Hx] Hds; [inv Hx; contradiction|eauto].
Qed.

Lemma peel_path_back d ds a a' : forall s s' n p',
  peel d ds n s s' -> (0 < n)%nat -> (maxc ds s <= n)%nat -> (forall q, ~ In q ds -> a' q = a q) ->
  spath s a' = Some p' -> exists p, spath s' a = Some p /\ peeled d ds n p' p.
Proof.
  induction s as [c| |q al r IH|q rs IH] using sig_ind'; intros s' n p' Hp Hn0 Hm Ha E.
  - inversion Hp; subst. inv E. exists []. split; [reflexivity|]. split; [|intros ? ? []].
    simpl. destruct n; [lia|]. apply Permutation_refl.
  - inversion Hp; subst. inv E. exists []. split; [reflexivity|]. split; [|intros ? ? []].
    simpl. destruct n; [lia|]. apply Permutation_refl.
  - simpl in E. destruct (spath r a') as [pr|] eqn:Er; [|discriminate]. inv E.
    inversion Hp as [| |n0 q0 a0 r0 r' Hq Hr| |q0 a0 a0' r0 Hq|n0 q0 a0 r0 r' Hq Hr]; subst.
    + simpl in Hm. destruct (mem q ds) eqn:Eq; [apply mem_In in Eq; contradiction|].
      destruct (IH _ _ _ Hr Hn0 Hm Ha eq_refl) as (p & Ep & [Hperm Hk]).
      exists ((q, None) :: p). simpl. rewrite Ep. split; [reflexivity|]. split.
      * simpl. rewrite Eq. simpl. rewrite <- Permutation_middle. apply perm_skip, Hperm.
      * intros x k [Hx|Hx]; [congruence|eauto].
    + simpl in Hm. rewrite (proj2 (mem_In q ds) Hq) in Hm. assert (Hm0 : maxc ds r = 0%nat) by lia.
      rewrite (peel_below ds a a' r Ha Hm0) in Er.
      exists ((d, None) :: pr). simpl. rewrite Er. split; [reflexivity|].
      assert (Hno : forall x, In x ds -> ~ In x (map fst pr)).
      { intros x Hx. eapply spath_not_accept; [exact Er|]. eapply maxc_0; eauto. }
      destruct (inside_nil ds pr Hno) as [Ei Eo]. split.
      * simpl. rewrite (proj2 (mem_In q ds) Hq). simpl. rewrite Ei, Eo. simpl. apply Permutation_refl.
      * intros x k [Hx|Hx] Hds; [congruence|]. exfalso. apply (Hno x Hds).
        apply in_map_iff. exists (x, k). auto.
    + simpl in Hm. rewrite (proj2 (mem_In q ds) Hq) in Hm.
      destruct (IH _ _ _ Hr (Nat.lt_0_succ _) (le_S_n _ _ Hm) Ha eq_refl) as (p & Ep & [Hperm Hk]).
      exists p. split; [exact Ep|]. split.
      * simpl. rewrite (proj2 (mem_In q ds) Hq). simpl. exact Hperm.
      * intros x k [Hx|Hx]; [congruence|eauto].
  - inversion Hp as [| | |n0 q0 rs0 rs' Hq Hlen Hr| |]; subst.
    rewrite spath_dep, Ha in E by exact Hq. destruct (nthz rs (a q)) as [r|] eqn:Ern; [|discriminate].
    destruct (spath r a') as [pr|] eqn:Er; [|discriminate]. inv E.
    destruct (nthz_range_Some rs' (a q)) as [r' Er'].
    { apply nthz_Some_range in Ern. lia. }
    simpl in Hm. destruct (mem q ds) eqn:Eq; [apply mem_In in Eq; contradiction|].
    eapply Forall_nthz in IH; [|exact Ern].
    assert (Hm' : (maxc ds r <= n)%nat).
    { pose proof (fold_max_In (maxc ds r) (map (maxc ds) rs) (in_map _ _ _ (nthz_In _ _ _ Ern))). lia. }
    destruct (IH _ _ _ (Hr _ _ _ Ern Er') Hn0 Hm' Ha Er) as (p & Ep & [Hperm Hk]).
    exists ((q, Some (Z.of_nat (List.length rs))) :: p). rewrite spath_dep, Er', Ep, Hlen.
    split; [reflexivity|]. split.
    + simpl. rewrite Eq. simpl. rewrite <- Permutation_middle. apply perm_skip, Hperm.
    + intros x k [Hx|Hx] Hds; [inv Hx; contradiction|eauto].
Qed.

Lemma peel_accept d ds q : forall s s' n,
  peel d ds n s s' -> any_accept q s' = true -> any_accept q s = true \/ q = d.
Proof.
  induction s as [c| |x al r IH|x rs IH] using sig_ind'; intros s' n Hp Hq.
  - inversion Hp; subst. discriminate.
  - inversion Hp; subst. discriminate.
  - inversion Hp as [| |n0 q0 a0 r0 r' Hx Hr| |q0 a0 a0' r0 Hx|n0 q0 a0 r0 r' Hx Hr]; subst; simpl in *.
    + destruct (x =? q); [auto|]. simpl in *. eauto.
    + destruct (Z.eqb_spec d q); [auto|]. simpl in Hq. left. rewrite Hq. apply orb_true_r.
    + destruct (IH _ _ Hr Hq) as [H|H]; [left; rewrite H; apply orb_true_r|auto].
  - inversion Hp as [| | |n0 q0 rs0 rs' Hx Hlen Hr| |]; subst; simpl in *.
    destruct (x =? q); [auto|]. simpl in *. apply existsb_exists in Hq. destruct Hq as (r' & Hin & Hq).
    apply In_nth_error in Hin. destruct Hin as [k Hk].
    assert (Hk' : nthz rs' (Z.of_nat k) = Some r').
    { rewrite nthz_nth_error. destruct (Z.leb_spec 0 (Z.of_nat k)); [|lia]. rewrite Nat2Z.id. exact Hk. }
    destruct (nthz_range_Some rs (Z.of_nat k)) as [r Er].
    { apply nthz_Some_range in Hk'. lia. }
    pose proof (Forall_nthz _ _ _ _ IH Er) as IH'. destruct (IH' _ _ (Hr _ _ _ Er Hk') Hq) as [H|H]; [left|auto].
    apply existsb_exists. exists r. split; [eapply nthz_In, Er|exact H].
Qed.

Lemma In_nthz {A} (l : list A) x : In x l -> exists k, nthz l k = Some x.
Proof.
  intros H. apply In_nth_error in H. destruct H as [k Hk]. exists (Z.of_nat k).
  rewrite nthz_nth_error. destruct (Z.leb_spec 0 (Z.of_nat k)); [|lia]. rewrite Nat2Z.id. exact Hk.
Qed.

Lemma peel_snodup d ds : forall s s' n,
  peel d ds n s s' -> snodup s = true -> (In d ds \/ any_accept d s = false) -> (maxc ds s <= n)%nat ->
  snodup s' = true.
Proof.
  induction s as [c| |x al r IH|x rs IH] using sig_ind'; intros s' n Hp Hn Hd Hm.
  - inversion Hp; subst. reflexivity.
  - inversion Hp; subst. reflexivity.
  - apply snodup_fun in Hn. destruct Hn as [Hx Hr].
    assert (Hd' : In d ds \/ any_accept d r = false).
    { destruct Hd as [Hd|Hd]; [auto|]. simpl in Hd. apply orb_false_iff in Hd. tauto. }
    inversion Hp as [| |n0 q0 a0 r0 r' Hq Hp'| |q0 a0 a0' r0 Hq|n0 q0 a0 r0 r' Hq Hp']; subst; simpl in *.
    + destruct (mem x ds) eqn:Ex; [apply mem_In in Ex; contradiction|].
      rewrite (IH _ _ Hp' Hr Hd' Hm), andb_true_r. apply negb_true_iff.
      destruct (any_accept x r') eqn:Ea; [|reflexivity].
      destruct (peel_accept _ _ _ _ _ _ Hp' Ea) as [H|H]; [congruence|]. subst.
      destruct Hd as [Hd|Hd]; [contradiction|]. rewrite Z.eqb_refl in Hd. discriminate.
    + rewrite (proj2 (mem_In x ds) Hq) in Hm. rewrite Hr, andb_true_r. apply negb_true_iff.
      destruct Hd' as [Hd'|Hd']; [|exact Hd']. apply (maxc_0 ds r d); [lia|exact Hd'].
    + rewrite (proj2 (mem_In x ds) Hq) in Hm. apply (IH _ _ Hp' Hr Hd'). lia.
  - inversion Hp as [| | |n0 q0 rs0 rs' Hq Hlen Hp'| |]; subst.
    simpl in Hm. destruct (mem x ds) eqn:Ex; [apply mem_In in Ex; contradiction|].
    pose proof Hn as Hn'. simpl in Hn. rewrite !andb_true_iff in Hn.
    simpl. rewrite !andb_true_iff, !forallb_forall, Hlen. split; [tauto|].
    split; intros r' Hin; apply In_nthz in Hin; destruct Hin as [k Hk];
      (destruct (nthz_range_Some rs k) as [r Er]; [apply nthz_Some_range in Hk; lia|]);
      destruct (snodup_dep _ _ _ _ Hn' Er) as [Hx Hr];
      pose proof (Hp' _ _ _ Er Hk) as Hpr.
    + apply negb_true_iff. destruct (any_accept x r') eqn:Ea; [|reflexivity].
      destruct (peel_accept _ _ _ _ _ _ Hpr Ea) as [H|H]; [congruence|]. subst.
      destruct Hd as [Hd|Hd]; [contradiction|]. simpl in Hd. rewrite Z.eqb_refl in Hd. discriminate.
    + pose proof (Forall_nthz _ _ _ _ IH Er) as IH'. apply (IH' _ _ Hpr Hr).
      * destruct Hd as [Hd|Hd]; [auto|]. right. simpl in Hd. apply orb_false_iff in Hd. destruct Hd as [_ Hd].
        destruct (any_accept d r) eqn:Ea; [|reflexivity].
        assert (existsb (any_accept d) rs = true) by (apply existsb_exists; exists r; split; [eapply nthz_In, Er|exact Ea]).
        congruence.
      * pose proof (fold_max_In (maxc ds r) (map (maxc ds) rs) (in_map _ _ _ (nthz_In _ _ _ Er))). lia.
Qed.

(** ** Hoisting *)

Lemma find_none_path d s al r a p x :
  sig_find_dim d [] s = Some (SFun x al r) -> spath s a = Some p -> x = d /\ In (d, None) p.
Proof.
  revert p. induction s as [c| |q al' r' IH|q rs IH] using sig_ind'; intros p E Ep; simpl in E; try discriminate.
  - simpl in Ep. destruct (spath r' a) as [pr|]; [|discriminate]. inv Ep.
    destruct (Z.eqb_spec q d) as [->|Hq].
    + inv E. simpl. auto.
    + destruct (IH _ E eq_refl) as [-> H]. simpl. auto.
  - destruct (q =? d); discriminate.
Qed.

(** ** Reordering *)

Definition statics_agree (st : state) (a : asg) : Prop :=
  forall q v k, get (Idx q) st = Some v -> vstatic v = Some k -> a q = k.

Lemma find_dim_path d st s o a p :
  statics_agree st a -> sig_find_dim d st s = Some o -> spath s a = Some p ->
  (exists al r, o = SFun d al r /\ In (d, None) p)
  \/ (exists rs, o = SDep d rs /\ In (d, Some (Z.of_nat (List.length rs))) p).
Proof.
  intros Hst. revert p. induction s as [c| |q al r IH|q rs IH] using sig_ind'; intros p E Ep; simpl in E; try discriminate.
  - simpl in Ep. destruct (spath r a) as [pr|]; [|discriminate]. inv Ep.
    destruct (Z.eqb_spec q d) as [->|Hq].
    + inv E. left. exists al, r. simpl. auto.
    + destruct (IH _ E eq_refl) as [(al' & r' & -> & H)|(rs' & -> & H)]; [left|right]; simpl; eauto.
  - rewrite spath_dep in Ep. destruct (nthz rs (a q)) as [r|] eqn:Er; [|discriminate].
    destruct (spath r a) as [pr|] eqn:Epr; [|discriminate]. inv Ep.
    destruct (Z.eqb_spec q d) as [->|Hq].
    + inv E. right. exists rs. simpl. auto.
    + destruct (get (Idx q) st) as [v|] eqn:Ev; [|discriminate].
      destruct (vstatic v) as [k|] eqn:Ek; [|discriminate].
      rewrite nthz_map in E. rewrite <- (Hst _ _ _ Ev Ek), Er in E. simpl in E.
      eapply Forall_nthz in IH; [|exact Er].
      destruct (IH _ E Epr) as [(al' & r' & -> & H)|(rs' & -> & H)]; [left|right]; simpl; eauto 6.
Qed.

Lemma reassemble_scalar_path s st s' a :
  statics_agree st a -> reassemble_scalar s st = Some s' -> sig_complete s' = true ->
  (exists c, s' = SScalar c) /\
  exists p', spath s a = Some p' /\ forall e, In e p' -> has (Idx (fst e)) st = true.
Proof.
  intros Hst. induction s as [c| |q al r IH|q rs IH] using sig_ind'; intros E Hc; simpl in E.
  - inv E. split; [eauto|]. exists []. split; [reflexivity|intros ? []].
  - inv E. discriminate.
  - destruct (has (Idx q) st) eqn:Eh; [|inv E; discriminate].
    destruct (IH E Hc) as (Hs & p' & Ep & Hp). split; [exact Hs|].
    exists ((q, None) :: p'). simpl. rewrite Ep. split; [reflexivity|].
    intros e [<-|He]; [exact Eh|auto].
  - destruct (get (Idx q) st) as [v|] eqn:Ev; [|inv E; discriminate].
    destruct (vstatic v) as [k|] eqn:Ek; [|discriminate]. rewrite nthz_map in E.
    rewrite <- (Hst _ _ _ Ev Ek) in E. destruct (nthz rs (a q)) as [r|] eqn:Er; [|discriminate].
    simpl in E. eapply Forall_nthz in IH; [|exact Er]. destruct (IH E Hc) as (Hs & p' & Ep & Hp).
    split; [exact Hs|]. eexists. rewrite spath_dep, Er, Ep. split; [reflexivity|].
    intros e [<-|He]; [|auto]. simpl. unfold has. rewrite Ev. reflexivity.
Qed.

Lemma statics_agree_with st a d v :
  statics_agree st a -> (forall k, vstatic v = Some k -> a d = k) -> statics_agree (with_ [(Idx d, v)] st) a.
Proof.
  intros H Hv q w k E Ek. rewrite get_with in E. simpl in E.
  destruct (Z.eqb_spec q d) as [->|Hq].
  - injection E as ->. auto.
  - eapply H; eauto.
Qed.

Lemma has_with_idx q d v st : has (Idx q) (with_ [(Idx d, v)] st) = (q =? d) || has (Idx q) st.
Proof. unfold has. rewrite get_with. simpl. destruct (q =? d); reflexivity. Qed.

Lemma nthz_zseq n k : nthz (zseq n) k = if (0 <=? k) && (k <? n) then Some k else None.
Proof.
  rewrite nthz_nth_error. unfold zseq. destruct (Z.leb_spec 0 k); [|reflexivity]. simpl.
  destruct (Z.ltb_spec k n).
  - rewrite nth_error_map, nth_error_nth' with (d := 0%nat) by (rewrite seq_length; lia).
    rewrite seq_nth by lia. simpl. f_equal. lia.
  - rewrite nth_error_map. replace (nth_error (seq 0 (Z.to_nat n)) (Z.to_nat k)) with (@None nat); [reflexivity|].
    symmetry. apply nth_error_None. rewrite seq_length. lia.
Qed.

Lemma find_dep_small d st top x rs :
  snodup top = true -> sig_find_dim d st top = Some (SDep x rs) -> Z.of_nat (List.length rs) < W.
Proof.
  intros Htop. induction top as [c| |q al r IH|q rs' IH] using sig_ind'; simpl; try discriminate.
  - destruct (Z.eqb_spec q d); [discriminate|]. apply IH. apply snodup_fun in Htop. tauto.
  - destruct (Z.eqb_spec q d).
    + intros E. inv E. simpl in Htop. rewrite !andb_true_iff in Htop. apply Z.ltb_lt. tauto.
    + destruct (get (Idx q) st) as [v|]; [|discriminate]. destruct (vstatic v) as [k|]; [|discriminate].
      rewrite nthz_map. destruct (nthz rs' k) as [r|] eqn:Er; [|discriminate]. simpl.
      eapply Forall_nthz in IH; [|exact Er]. apply IH. eapply snodup_dep; eauto.
Qed.

Lemma build_path top a : snodup top = true -> forall ds st s' p,
  reassemble_build top st ds = Some s' -> sig_complete s' = true -> statics_agree st a ->
  spath s' a = Some p ->
  NoDup ds /\ map fst p = ds /\
  exists p', spath top a = Some p' /\ (forall e, In e p' -> has (Idx (fst e)) st = true \/ In (fst e) ds)
             /\ (forall e, In e p -> In e p').
Proof.
  intros Htop. induction ds as [|d ds IH]; intros st s' p E Hc Hst Ep.
  - simpl in E. destruct (reassemble_scalar_path _ _ _ _ Hst E Hc) as ((c & ->) & p' & Ep' & Hp).
    inv Ep. split; [constructor|]. split; [reflexivity|]. exists p'. split; [exact Ep'|].
    split; [intros e He; left; auto|intros ? []].
  - simpl in E. destruct (mem d ds) eqn:Em; [discriminate|]. apply mem_false_In in Em.
    destruct (sig_find_dim d st top) as [o|] eqn:Ef; [|discriminate].
    destruct o as [| |x al r|x rs]; try discriminate.
    + destruct (reassemble_build top (with_ [(Idx d, Dyn 0)] st) ds) as [s0|] eqn:Eb; [|discriminate]. inv E.
      simpl in Ep, Hc. destruct (spath s0 a) as [p0|] eqn:Ep0; [|discriminate]. inv Ep.
      assert (Hst' : statics_agree (with_ [(Idx d, Dyn 0)] st) a)
        by (apply statics_agree_with; [exact Hst|discriminate]).
      destruct (IH _ _ _ Eb Hc Hst' Ep0) as (Hnd & Hmap & p' & Ep' & Hin & Hsub).
      split; [constructor; assumption|]. split; [simpl; f_equal; exact Hmap|].
      exists p'. split; [exact Ep'|]. split.
      * intros e He. destruct (Hin _ He) as [H|H]; [|right; right; exact H].
        rewrite has_with_idx in H. apply orb_true_iff in H. destruct H as [H|H]; [|auto].
        apply Z.eqb_eq in H. right; left; auto.
      * intros e [<-|He]; [|auto].
        destruct (find_dim_path _ _ _ _ _ _ Hst Ef Ep') as [(al' & r' & Eo & H)|(rs' & Eo & H)]; [exact H|discriminate].
    + destruct (omap _ (zseq (Z.of_nat (List.length rs)))) as [ss|] eqn:Eb in E; [|discriminate]. inv E.
      rewrite spath_dep in Ep. destruct (nthz ss (a d)) as [s0|] eqn:Es0; [|discriminate].
      destruct (spath s0 a) as [p0|] eqn:Ep0; [|discriminate]. inv Ep.
      pose proof (omap_length _ _ _ Eb) as Hlen. apply omap_Some_Forall2 in Eb.
      pose proof (Forall2_nthz _ _ _ (a d) Eb) as Hn. rewrite Es0, nthz_zseq in Hn.
      destruct ((0 <=? a d) && (a d <? Z.of_nat (List.length rs))) eqn:Er; [|contradiction].
      rewrite zseq_length, Nat2Z.id in Hlen.
      assert (Hc0 : sig_complete s0 = true).
      { simpl in Hc. rewrite forallb_forall in Hc. apply Hc. eapply nthz_In, Es0. }
      assert (Hst' : statics_agree (with_ [(Idx d, Sta (a d))] st) a).
      { apply statics_agree_with; [exact Hst|]. intros k Ek. simpl in Ek. injection Ek as <-.
        symmetry. apply u64_small. pose proof (find_dep_small _ _ _ _ _ Htop Ef). lia. }
      destruct (IH _ _ _ Hn Hc0 Hst' Ep0) as (Hnd & Hmap & p' & Ep' & Hin & Hsub).
      split; [constructor; assumption|]. split; [simpl; f_equal; exact Hmap|].
      exists p'. split; [exact Ep'|]. split.
      * intros e He. destruct (Hin _ He) as [H|H]; [|right; right; exact H].
        rewrite has_with_idx in H. apply orb_true_iff in H. destruct H as [H|H]; [|auto].
        apply Z.eqb_eq in H. right; left; auto.
      * intros e [<-|He]; [|auto].
        destruct (find_dim_path _ _ _ _ _ _ Hst Ef Ep') as [(al' & r' & Eo & H)|(rs' & Eo & H)]; [discriminate|].
        inv Eo. rewrite Hlen. exact H.
Qed.

Lemma build_path_back top a p' : snodup top = true -> spath top a = Some p' -> forall ds st s',
  reassemble_build top st ds = Some s' -> sig_complete s' = true -> statics_agree st a ->
  exists p, spath s' a = Some p.
Proof.
  intros Htop Ep'. induction ds as [|d ds IH]; intros st s' E Hc Hst.
  - simpl in E. destruct (reassemble_scalar_path _ _ _ _ Hst E Hc) as ((c & ->) & _). exists []. reflexivity.
  - simpl in E. destruct (mem d ds) eqn:Em; [discriminate|].
    destruct (sig_find_dim d st top) as [o|] eqn:Ef; [|discriminate].
    destruct (find_dim_path _ _ _ _ _ _ Hst Ef Ep') as [(al' & r' & -> & H)|(rs & -> & H)].
    + destruct (reassemble_build top (with_ [(Idx d, Dyn 0)] st) ds) as [s0|] eqn:Eb; [|discriminate]. inv E.
      destruct (IH _ _ Eb Hc) as [p0 E0]; [apply statics_agree_with; [exact Hst|discriminate]|].
      simpl. rewrite E0. simpl. eauto.
    + destruct (omap _ (zseq (Z.of_nat (List.length rs)))) as [ss|] eqn:Eb in E; [|discriminate]. inv E.
      pose proof (spath_dep_range _ _ _ _ _ Ep' H) as Hr.
      apply omap_Some_Forall2 in Eb. pose proof (Forall2_nthz _ _ _ (a d) Eb) as Hn.
      rewrite nthz_zseq in Hn. destruct (Z.leb_spec 0 (a d)), (Z.ltb_spec (a d) (Z.of_nat (List.length rs))); try lia.
      simpl in Hn. destruct (nthz ss (a d)) as [s0|] eqn:Es0; [|contradiction].
      destruct (IH _ _ Hn) as [p0 E0].
      * simpl in Hc. rewrite forallb_forall in Hc. apply Hc. eapply nthz_In, Es0.
      * apply statics_agree_with; [exact Hst|]. intros k Ek. injection Ek as <-.
        symmetry. apply u64_small. pose proof (find_dep_small _ _ _ _ _ Htop Ef). lia.
      * rewrite spath_dep, Es0, E0. simpl. eauto.
Qed.

Lemma build_accept top q : forall ds st s',
  reassemble_build top st ds = Some s' -> any_accept q s' = true -> In q ds.
Proof.
  induction ds as [|d ds IH]; intros st s' E Hq.
  - simpl in E. exfalso. revert E. induction top as [c| |x al r IH|x rs IH] using sig_ind'; simpl; intros E.
    + inv E. discriminate.
    + inv E. discriminate.
    + destruct (has (Idx x) st); [auto|]. inv E. discriminate.
    + destruct (get (Idx x) st) as [v|]; [|inv E; discriminate]. destruct (vstatic v) as [k|]; [|discriminate].
      rewrite nthz_map in E. destruct (nthz rs k) as [r|] eqn:Er; [|discriminate].
      eapply Forall_nthz in IH; [|exact Er]. auto.
  - simpl in E. destruct (mem d ds) eqn:Em; [discriminate|].
    destruct (sig_find_dim d st top) as [o|] eqn:Ef; [|discriminate].
    destruct o as [| |x al r|x rs]; try discriminate.
    + destruct (reassemble_build top (with_ [(Idx d, Dyn 0)] st) ds) as [s0|] eqn:Eb; [|discriminate]. inv E.
      simpl in Hq. destruct (Z.eqb_spec d q); [left; auto|]. right. eauto.
    + destruct (omap _ (zseq (Z.of_nat (List.length rs)))) as [ss|] eqn:Eb in E; [|discriminate]. inv E.
      simpl in Hq. destruct (Z.eqb_spec d q); [left; auto|]. right. simpl in Hq.
      apply existsb_exists in Hq. destruct Hq as (s0 & Hin & Hq).
      apply (omap_Some_In _ _ _ Eb) in Hin. destruct Hin as (k & _ & E). eauto.
Qed.

Lemma reassemble_scalar_snodup s : forall st s', reassemble_scalar s st = Some s' -> snodup s' = true.
Proof.
  induction s as [c| |x al r IH|x rs IH] using sig_ind'; simpl; intros st s' E.
  - inv E. reflexivity.
  - inv E. reflexivity.
  - destruct (has (Idx x) st); [eauto|]. inv E. reflexivity.
  - destruct (get (Idx x) st) as [v|]; [|inv E; reflexivity]. destruct (vstatic v) as [k|]; [|discriminate].
    rewrite nthz_map in E. destruct (nthz rs k) as [r|] eqn:Er; [|discriminate].
    eapply Forall_nthz in IH; [|exact Er]. simpl in E. eauto.
Qed.

Lemma build_snodup top : snodup top = true -> forall ds st s',
  reassemble_build top st ds = Some s' -> snodup s' = true.
Proof.
  intros Htop. induction ds as [|d ds IH]; intros st s' E.
  - eapply reassemble_scalar_snodup, E.
  - simpl in E. destruct (mem d ds) eqn:Em; [discriminate|].
    assert (Hacc : forall st0 s0, reassemble_build top st0 ds = Some s0 -> any_accept d s0 = false).
    { intros st0 s0 E0. destruct (any_accept d s0) eqn:Ea; [|reflexivity].
      eapply build_accept in Ea; [|exact E0]. apply mem_In in Ea. congruence. }
    destruct (sig_find_dim d st top) as [o|] eqn:Ef; [|discriminate].
    destruct o as [| |x al r|x rs]; try discriminate.
    + destruct (reassemble_build top (with_ [(Idx d, Dyn 0)] st) ds) as [s0|] eqn:Eb; [|discriminate]. inv E.
      simpl. rewrite (Hacc _ _ Eb), (IH _ _ Eb). reflexivity.
    + destruct (omap _ (zseq (Z.of_nat (List.length rs)))) as [ss|] eqn:Eb in E; [|discriminate]. inv E.
      simpl. rewrite !andb_true_iff, !forallb_forall. rewrite (omap_length _ _ _ Eb), zseq_length, Nat2Z.id.
      split; [apply Z.ltb_lt; eapply find_dep_small; eauto|].
      split; intros s0 Hin; apply (omap_Some_In _ _ _ Eb) in Hin; destruct Hin as (k & _ & E0).
      * rewrite (Hacc _ _ E0). reflexivity.
      * eauto.
Qed.

(** ** Renaming *)

Lemma spath_rename ps s a :
  spath (rename_sig ps s) a =
  option_map (map (fun e => (rename_dim ps (fst e), snd e))) (spath s (fun q => a (rename_dim ps q))).
Proof.
  induction s as [c| |d al r IH|d rs IH] using sig_ind'; try reflexivity.
  - simpl. rewrite IH. destruct (spath r _); reflexivity.
  - change (rename_sig ps (SDep d rs)) with (SDep (rename_dim ps d) (map (rename_sig ps) rs)).
    rewrite !spath_dep, nthz_map, map_length.
    destruct (nthz rs (a (rename_dim ps d))) as [r|] eqn:Er; [|reflexivity]. simpl.
    eapply Forall_nthz in IH; [|exact Er]. rewrite IH. destruct (spath r _); reflexivity.
Qed.

Lemma rename_accept ps q s : any_accept q (rename_sig ps s) = true ->
  exists x, any_accept x s = true /\ rename_dim ps x = q.
Proof.
  induction s as [c| |d al r IH|d rs IH] using sig_ind'; simpl; try discriminate.
  - destruct (Z.eqb_spec (rename_dim ps d) q).
    + intros _. exists d. rewrite Z.eqb_refl. auto.
    + simpl. intros H. destruct (IH H) as (x & Hx & E). exists x. rewrite Hx, orb_true_r. auto.
  - destruct (Z.eqb_spec (rename_dim ps d) q).
    + intros _. exists d. rewrite Z.eqb_refl. auto.
    + simpl. intros H. apply existsb_exists in H. destruct H as (r' & Hin & H).
      apply in_map_iff in Hin. destruct Hin as (r & <- & Hin). rewrite Forall_forall in IH.
      destruct (IH _ Hin H) as (x & Hx & E). exists x. split; [|exact E].
      apply orb_true_iff. right. apply existsb_exists. eauto.
Qed.

Definition rename_ok (ps : list (dim * dim)) (s : sig) : bool :=
  nodupb (map fst ps) && nodupb (map snd ps)
  && forallb (fun e => negb (any_accept e s) || mem e (map fst ps)) (map snd ps).

Lemma rename_inj ps s x y :
  rename_ok ps s = true -> any_accept x s = true -> any_accept y s = true ->
  rename_dim ps x = rename_dim ps y -> x = y.
Proof.
  unfold rename_ok. rewrite !andb_true_iff, !nodupb_NoDup, forallb_forall. intros [[Hf Hs] Hk] Hx Hy E.
  assert (K : forall x y, any_accept y s = true -> In x (map fst ps) -> ~ In y (map fst ps) ->
              rename_dim ps x = rename_dim ps y -> False).
  { clear x y Hx Hy E. intros x y Hy Hxi Hyi E. rewrite (rename_dim_out _ _ Hyi) in E.
    apply rename_dim_in in Hxi. rewrite E in Hxi. apply (in_map snd) in Hxi. simpl in Hxi.
    specialize (Hk _ Hxi). rewrite Hy in Hk. simpl in Hk. apply mem_In in Hk. contradiction. }
  destruct (in_dec Z.eq_dec x (map fst ps)) as [Hxi|Hxi], (in_dec Z.eq_dec y (map fst ps)) as [Hyi|Hyi].
  - apply rename_dim_in in Hxi. apply rename_dim_in in Hyi. rewrite E in Hxi.
    assert (Hx' : rename_dim (swap_pairs ps) (rename_dim ps y) = x)
      by (apply rename_dim_pair; [rewrite swap_fst; exact Hs|apply swap_In, Hxi]).
    assert (Hy' : rename_dim (swap_pairs ps) (rename_dim ps y) = y)
      by (apply rename_dim_pair; [rewrite swap_fst; exact Hs|apply swap_In, Hyi]).
    congruence.
  - exfalso. eapply (K x y); eauto.
  - exfalso. eapply (K y x); eauto.
  - rewrite !rename_dim_out in E; assumption.
Qed.

Lemma rename_snodup ps s : rename_ok ps s = true -> snodup s = true -> snodup (rename_sig ps s) = true.
Proof.
  intros Hok. assert (G : forall s0, (forall q, any_accept q s0 = true -> any_accept q s = true) ->
    snodup s0 = true -> snodup (rename_sig ps s0) = true); [|intros Hn; apply G; auto].
  induction s0 as [c| |d al r IH|d rs IH] using sig_ind'; intros Hin Hn; try reflexivity.
  - apply snodup_fun in Hn. destruct Hn as [Hd Hr]. simpl.
    rewrite IH; [|intros q Hq; apply Hin; simpl; rewrite Hq; apply orb_true_r|exact Hr].
    rewrite andb_true_r. apply negb_true_iff. destruct (any_accept _ (rename_sig ps r)) eqn:Ea; [|reflexivity].
    apply rename_accept in Ea. destruct Ea as (x & Hx & E).
    apply rename_inj with (s := s) in E; [subst; congruence|exact Hok| |].
    + apply Hin. simpl. rewrite Hx. apply orb_true_r.
    + apply Hin. simpl. rewrite Z.eqb_refl. reflexivity.
  - pose proof Hn as Hn'. simpl in Hn. rewrite !andb_true_iff in Hn. simpl.
    rewrite !andb_true_iff, !forallb_forall, map_length. split; [tauto|].
    split; intros r' Hr'; apply in_map_iff in Hr'; destruct Hr' as (r & <- & Hr);
      destruct (In_nthz _ _ Hr) as [k Hk]; destruct (snodup_dep _ _ _ _ Hn' Hk) as [Hd Hs].
    + apply negb_true_iff. destruct (any_accept _ (rename_sig ps r)) eqn:Ea; [|reflexivity].
      apply rename_accept in Ea. destruct Ea as (x & Hx & E).
      apply rename_inj with (s := s) in E; [subst; congruence|exact Hok| |].
      * apply Hin. simpl. apply orb_true_iff. right. apply existsb_exists. eauto.
      * apply Hin. simpl. rewrite Z.eqb_refl. reflexivity.
    + rewrite Forall_forall in IH. apply IH; [exact Hr| |exact Hs].
      intros q Hq. apply Hin. simpl. apply orb_true_iff. right. apply existsb_exists. eauto.
Qed.
