(** * The number of iterations (C36) *)

From Verif Require Export TravDef Shortcuts SpecCount.

Lemma vz_dyn2 f a b n : vz (dyn2 f a b) = Some n -> exists x y, vz a = Some x /\ vz b = Some y /\ n = u64 (f x y).
Proof.
  unfold dyn2. destruct (vz a) as [x|]; [|discriminate]. destruct (vz b) as [y|]; [|discriminate].
  intros E. exists x, y. split; [reflexivity|]. split; [reflexivity|]. cbn [vz] in E. rewrite u64_u64 in E. congruence.
Qed.

Lemma vz_fold_add l : forall r n, vz (fold_left (dyn2 Z.add) l r) = Some n ->
  exists x xs, vz r = Some x /\ Forall2 (fun v y => vz v = Some y) l xs /\ n = u64 (x + fold_right Z.add 0 xs).
Proof.
  induction l as [|v l IH]; intros r n E; simpl in E.
  - exists n, []. split; [exact E|]. split; [constructor|]. simpl. rewrite Z.add_0_r. symmetry. apply u64_small. eapply vz_range; eauto.
  - destruct (IH _ _ E) as (z & xs & Ez & F & ->). apply vz_dyn2 in Ez. destruct Ez as (x & y & Ex & Ey & ->).
    exists x, (y :: xs). split; [exact Ex|]. split; [constructor; assumption|]. simpl. rewrite u64_add_l. f_equal. lia.
Qed.

Lemma concat_length_const {A} (ls : list (list A)) m n : Forall (fun l => u64 (Z.of_nat (List.length l)) = m) ls -> Z.of_nat (List.length ls) = n ->
  u64 (Z.of_nat (List.length (concat ls))) = u64 (n * m).
Proof.
  intros F. revert n. induction F as [|l ls H F IH]; intros n En; simpl in *.
  - subst n. reflexivity.
  - rewrite app_length, Nat2Z.inj_add, <- u64_add_l, H, <- u64_add_r, (IH (n - 1)) by lia. rewrite u64_add_r. f_equal. lia.
Qed.

Lemma concat_length_sum {A} (ls : list (list A)) xs : Forall2 (fun l x => u64 (Z.of_nat (List.length l)) = x) ls xs ->
  u64 (Z.of_nat (List.length (concat ls))) = u64 (fold_right Z.add 0 xs).
Proof.
  induction 1 as [|l x ls xs H F IH]; simpl; [reflexivity|].
  rewrite app_length, Nat2Z.inj_add, <- u64_add_l, H, <- u64_add_r, IH, u64_add_r. reflexivity.
Qed.

Lemma numbered_rel {A B C D} (f : Z * A -> outcome (list B)) (g : A -> C -> Prop) (h : C -> D -> Prop) (R : list B -> D -> Prop) l :
  forall k ls vs xs, Forall2 (fun o x => o = Done x) (map f (numbered k l)) ls -> Forall2 g l vs -> Forall2 h vs xs ->
  (forall j a x w m, k <= j -> nthz l (j - k) = Some a -> f (j, a) = Done x -> g a w -> h w m -> R x m) -> Forall2 R ls xs.
Proof.
  induction l as [|a l IH]; intros k ls vs xs F G H K; simpl in F.
  - inversion G; subst. inversion H; subst. inversion F; subst. constructor.
  - inversion G as [|? w ? vs' Gw G']; subst. inversion H as [|? m ? xs' Hm H']; subst. inversion F as [|? x ? ls' Fx F']; subst.
    constructor.
    + apply (K k a x w m); auto; try lia. rewrite Z.sub_diag. reflexivity.
    + apply (IH (k + 1) ls' vs' xs'); auto. intros j b y w' m' Hj Eb Ey Gb Hb. apply (K j b y w' m'); auto; [lia|].
      simpl. destruct (Z.eqb_spec (j - k) 0); [lia|]. replace (j - k - 1) with (j - (k + 1)) by lia. exact Eb.
Qed.

Section Count.
  Variables (top : struct) (sg : sig).
  Hypothesis Hs : signature top = Some sg.
  Hypothesis Hlk : lenok top nolens.
  Hypothesis Hone : singles_ok top.

  Lemma fixed_length d st len0 len n0 n : (forall q, get (Len q) st = None) -> length_ top d [] = Some len0 -> length_ top d st = Some len ->
    vz len0 = Some n0 -> vz len = Some n -> n0 = n.
  Proof.
    intros Hl E0 E V0 V.
    assert (A0 : agree [] nolens (asg_of st)) by (split; [intros q; exact I|intros q v Hv; discriminate]).
    assert (A : agree st nolens (asg_of st)).
    { destruct (agree_of st) as [A1 A2]. split; [|exact A2]. intros q. rewrite Hl. exact I. }
    pose proof (length_agree top ltac:(congruence) _ _ _ _ _ Hlk A0 E0) as H0. pose proof (length_agree top ltac:(congruence) _ _ _ _ _ Hlk A E) as H.
    unfold vagree in *. rewrite V0 in H0. rewrite V in H. congruence.
  Qed.

  Lemma count_run r : forall st l v n, snodup r = true -> sfresh r st -> pos sg r st -> (forall q, get (Len q) st = None) ->
    fe_run top sg (sig_dim_tree r) st = Done l -> iss_tree top (sig_dim_tree r) = Some v -> vz v = Some n ->
    u64 (Z.of_nat (List.length l)) = n.
  Proof.
    assert (Hleaf : forall st l v n, fe_run top sg DLeaf st = Done l -> iss_tree top DLeaf = Some v -> vz v = Some n -> u64 (Z.of_nat (List.length l)) = n).
    { intros st l v n E Ev Vn. cbn in E, Ev. injection E as <-. injection Ev as <-. cbn [vz] in Vn. injection Vn as <-. reflexivity. }
    induction r as [c| |d al r IH|d rs IH] using sig_ind'; intros st l v n Hn Hf Hp Hl E Ev Vn; try (eapply Hleaf; eassumption).
    - apply snodup_fun in Hn. destruct Hn as [Hd Hn].
      pose proof (Hp d st ltac:(intros ? ? H; exact H) ltac:(simpl; rewrite Z.eqb_refl; reflexivity)) as E2.
      simpl in E2. rewrite Z.eqb_refl in E2. cbn [sig_dim_tree fe_run] in E. rewrite E2 in E.
      destruct (sfresh_fun d al r st (Dyn 0) Hf Hd) as (Hgd & _ & _).
      cbn [sig_dim_tree iss_tree] in Ev. destruct (length_ top d []) as [len0|] eqn:E0; [|discriminate]. cbn [obind] in Ev.
      destruct (iss_tree top (sig_dim_tree r)) as [w|] eqn:Ew; [|discriminate]. injection Ev as <-.
      apply vz_dyn2 in Vn. destruct Vn as (n0 & m & V0 & Vw & ->).
      destruct (length_ top d st) as [len|] eqn:El; [|discriminate]. destruct (vz len) as [n1|] eqn:V1; [|discriminate].
      assert (n0 = n1) by (exact (fixed_length d st len0 len n0 n1 Hl E0 El V0 V1)). subst n1.
      destruct (out_cat_Done _ _ E) as (ls & F & ->).
      apply concat_length_const.
      + apply Forall_forall. intros x Hx. destruct (Forall2_In_r _ _ _ _ F Hx) as (o & Ho & ->). apply in_map_iff in Ho. destruct Ho as (i & Ei & _).
        rewrite with_fresh in Ei by exact Hgd. destruct (sfresh_fun d al r st (Dyn i) Hf Hd) as (_ & Hfi & _).
        apply (IH _ _ w m Hn Hfi); auto; [eapply pos_fun; eauto using extends_app|].
        intros q. rewrite get_app, Hl. reflexivity.
      + rewrite <- (Forall2_len _ _ _ F), map_length, zseq_length. rewrite Z2Nat.id; [reflexivity|]. apply vz_range in V0. lia.
    - rewrite Forall_forall in IH. pose proof Hn as Hn0. simpl in Hn. rewrite !andb_true_iff, !forallb_forall in Hn.
      destruct Hn as (HW & Hd & Hn). apply Z.ltb_lt in HW.
      pose proof (Hp d st ltac:(intros ? ? H; exact H) ltac:(simpl; rewrite Z.eqb_refl; reflexivity)) as E2.
      simpl in E2. rewrite Z.eqb_refl in E2. cbn [sig_dim_tree] in E. rewrite (fe_run_dep _ _ _ _ _ _ _ E2) in E.
      destruct (out_cat_Done _ _ E) as (ls & F & ->).
      assert (Hall : forall k r x, nthz rs k = Some r -> fe_run top sg (sig_dim_tree r) (with_ [(Idx d, Sta k)] st) = Done x ->
        forall w m, iss_tree top (sig_dim_tree r) = Some w -> vz w = Some m -> u64 (Z.of_nat (List.length x)) = m).
      { intros k r x Er Ex w m Ew Em. pose proof (nthz_In _ _ _ Er) as Hin. pose proof (nthz_Some_range _ _ _ Er) as Hrk.
        specialize (Hd _ Hin). apply negb_true_iff in Hd. destruct (sfresh_dep d rs r st (Sta k) Hf Hin Hd) as (Hgd & Hfr & _).
        rewrite with_fresh in Ex by exact Hgd. apply (IH r Hin _ _ w m (Hn _ Hin) Hfr) in Ex; auto; [eapply pos_dep; eauto; lia|].
        intros q. rewrite get_app, Hl. reflexivity. }
      assert (Hsum : forall vs xs, omap (iss_tree top) (map sig_dim_tree rs) = Some vs -> Forall2 (fun v y => vz v = Some y) vs xs ->
        u64 (Z.of_nat (List.length (concat ls))) = u64 (fold_right Z.add 0 xs)).
      { intros vs xs Evs Fx. apply concat_length_sum. apply omap_Some_Forall2 in Evs.
        refine (numbered_rel _ _ _ _ _ 0 ls vs xs F Evs Fx _). intros j b x w m Hj Eb Ex Ew Em. rewrite Z.sub_0_r in Eb. cbn [fst snd] in Ex.
        rewrite nthz_map in Eb. destruct (nthz rs j) as [r|] eqn:Er; [|discriminate]. injection Eb as <-.
        exact (Hall j r x Er Ex w m Ew Em). }
      cbn [sig_dim_tree iss_tree] in Ev. destruct rs as [|r1 [|r2 rs']].
      + discriminate Ev.
      + cbn [map] in Ev. destruct (length_ top d []) as [len0|] eqn:E0; [|discriminate]. cbn [obind] in Ev.
        destruct (iss_tree top (sig_dim_tree r1)) as [w|] eqn:Ew; [|discriminate]. injection Ev as <-.
        apply vz_dyn2 in Vn. destruct Vn as (n0 & m & V0 & Vw & ->).
        rewrite (Hone sg d st d r1 len0 n0 Hs E2 E0 V0).
        rewrite (Hsum [w] [m]); [cbn [fold_right]; f_equal; lia|cbn [map omap]; rewrite Ew; reflexivity|repeat constructor; exact Vw].
      + cbn [map] in Ev. destruct (omap (iss_tree top) (sig_dim_tree r1 :: sig_dim_tree r2 :: map sig_dim_tree rs')) as [vs|] eqn:Evs; [|discriminate].
        cbn [obind] in Ev. destruct vs as [|v0 vs]; [discriminate|]. injection Ev as <-.
        destruct (vz_fold_add _ _ _ Vn) as (x & xs & Vx & Fx & ->).
        rewrite (Hsum (v0 :: vs) (x :: xs)); [reflexivity|exact Evs|constructor; assumption].
  Qed.
End Count.

Lemma find_accept d st sg : forall x, sig_find_dim d st sg = Some x -> any_accept d sg = true.
Proof.
  induction sg as [c| |d' al r IH|d' rs IH] using sig_ind'; intros x E; simpl in E; try discriminate.
  - simpl. destruct (d' =? d); [reflexivity|]. eauto.
  - simpl. destruct (d' =? d); [reflexivity|]. destruct (get (Idx d') st) as [v|]; [|discriminate]. destruct (vstatic v) as [k|]; [|discriminate].
    rewrite nthz_map in E. destruct (nthz rs k) as [r|] eqn:Er; [|discriminate]. simpl in E. pose proof (nthz_In _ _ _ Er) as Hin.
    rewrite Forall_forall in IH. simpl. apply existsb_exists. exists r. split; [exact Hin|]. exact (IH r Hin x E).
Qed.

Lemma iss_one s sg r : signature s = Some sg -> (forall q, any_accept q r = true -> any_accept q sg = true) ->
  iss_tree (Union [s]) (sig_dim_tree r) = iss_tree s (sig_dim_tree r).
Proof.
  intros Es. induction r as [c| |d al r IH|d rs IH] using sig_ind'; intros H; try reflexivity.
  - cbn [sig_dim_tree iss_tree]. rewrite (length_one s d [] sg Es); [|apply H; simpl; rewrite Z.eqb_refl; reflexivity].
    rewrite IH; [reflexivity|]. intros q Hq. apply H. simpl. rewrite Hq. apply orb_true_r.
  - cbn [sig_dim_tree iss_tree]. rewrite (length_one s d [] sg Es); [|apply H; simpl; rewrite Z.eqb_refl; reflexivity].
    assert (Hr : forall r, In r rs -> iss_tree (Union [s]) (sig_dim_tree r) = iss_tree s (sig_dim_tree r)).
    { rewrite Forall_forall in IH. intros r Hr. apply (IH r Hr). intros q Hq. apply H. simpl. apply orb_true_iff. right. apply existsb_exists. eauto. }
    replace (omap (iss_tree (Union [s])) (map sig_dim_tree rs)) with (omap (iss_tree s) (map sig_dim_tree rs)).
    + destruct rs as [|r1 [|r2 rs]]; try reflexivity. cbn [map]. rewrite Hr by (left; reflexivity). reflexivity.
    + clear -Hr. induction rs as [|r rs IH]; [reflexivity|]. cbn [map omap]. rewrite Hr by (left; reflexivity).
      rewrite IH; [reflexivity|]. intros x Hx. apply Hr. right. exact Hx.
Qed.

Lemma index_space_count s v n l : distinct_dims s -> lenok s nolens -> singles_ok s ->
  index_space_size s = Some v -> vz v = Some n -> for_each (traverser [s]) [] = Done l ->
  n = u64 (Z.of_nat (List.length l)).
Proof.
  intros Hd Hl Ho Ev Vn El.
  unfold index_space_size in Ev. destruct (signature s) as [sg|] eqn:Es; [|discriminate]. cbn [obind] in Ev.
  assert (Hd' : distinct_dims (Union [s])) by (unfold distinct_dims in *; rewrite signature_one; exact Hd).
  assert (Hl' : lenok (Union [s]) nolens) by (simpl; auto).
  destruct (each_run (traverser [s]) l ltac:(discriminate) Hd' El) as (sg' & sts & Hs & E & _ & F).
  change (top_struct (traverser [s])) with (Union [s]) in *.
  rewrite <- (Forall2_len _ _ _ F). assert (sg' = sg) by (rewrite signature_one in Hs; congruence). subst sg'.
  symmetry. refine (count_run (Union [s]) sg Hs Hl' _ sg [] sts v n (distinct_snodup _ _ Hd' Hs) _ _ _ E _ Vn).
  - intros sg' d st d' r len m E1 E2 E3 E4. assert (sg' = sg) by congruence. subst sg'.
    rewrite (length_one s d [] sg Es) in E3 by exact (find_accept _ _ _ _ E2). exact (Ho sg d st d' r len m Es E2 E3 E4).
  - intros q _. reflexivity.
  - intros q st' _ _. reflexivity.
  - reflexivity.
  - rewrite (iss_one s sg sg Es); auto.
Qed.
