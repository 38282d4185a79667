(** * Facts about the loops of a traverser *)

From Coq Require Import Sorted.
From Verif Require Export SpecTrav Access.

(** ** Sequencing *)

Lemma out_cat_Done {A} (l : list (outcome (list A))) x : out_cat l = Done x ->
  exists xs, Forall2 (fun o y => o = Done y) l xs /\ x = concat xs.
Proof.
  revert x. induction l as [|o l IH]; simpl; intros x E.
  - inv E. exists []. split; [constructor|reflexivity].
  - destruct o as [| |y]; try discriminate. simpl in E. destruct (out_cat l) as [| |z]; try discriminate. inv E.
    destruct (IH _ eq_refl) as (ys & F & ->). exists (y :: ys). split; [constructor; auto|reflexivity].
Qed.

Lemma out_cat_map_In {A B} (f : A -> outcome (list B)) l x b : out_cat (map f l) = Done x ->
  (In b x <-> exists a y, In a l /\ f a = Done y /\ In b y).
Proof.
  revert x. induction l as [|a l IH]; simpl; intros x E.
  - inv E. split; [intros []|intros (? & ? & [] & _)].
  - destruct (f a) as [| |y] eqn:Ea; try discriminate. simpl in E.
    destruct (out_cat (map f l)) as [| |z]; try discriminate. inv E. rewrite in_app_iff, (IH z eq_refl). split.
    + intros [H|(a' & y' & H1 & H2 & H3)]; [exists a, y|exists a', y']; auto.
    + intros (a' & y' & [->|H1] & H2 & H3); [left; congruence|right; eauto].
Qed.

Lemma out_cat_all {A B} (f : A -> outcome (list B)) l x a : out_cat (map f l) = Done x -> In a l -> exists y, f a = Done y.
Proof.
  revert x. induction l as [|b l IH]; simpl; intros x E H; [destruct H|].
  destruct (f b) as [| |y] eqn:Eb; try discriminate. simpl in E.
  destruct (out_cat (map f l)) as [| |z]; try discriminate. destruct H as [->|H]; eauto.
Qed.

Lemma zseq_In n i : In i (zseq n) <-> 0 <= i < n.
Proof.
  unfold zseq. rewrite in_map_iff. split.
  - intros (k & <- & Hk). apply in_seq in Hk. lia.
  - intros H. exists (Z.to_nat i). split; [lia|]. apply in_seq. lia.
Qed.

Lemma numbered_In {A} (l : list A) : forall k j x, In (j, x) (numbered k l) <-> k <= j /\ nthz l (j - k) = Some x.
Proof.
  induction l as [|y l IH]; intros k j x; simpl.
  - split; [intros []|intros [_ H]; discriminate].
  - rewrite IH. destruct (Z.eqb_spec (j - k) 0) as [E|E].
    + split; [intros [H|[H _]]; [inv H; split; [lia|reflexivity]|lia]|]. intros [_ H]. inv H. left. f_equal. lia.
    + replace (j - (k + 1)) with (j - k - 1) by lia. split.
      * intros [H|[H1 H2]]; [inv H; lia|]. split; [lia|exact H2].
      * intros [H1 H2]. right. split; [lia|exact H2].
Qed.

Lemma go_numbered {A B} (f : Z -> A -> B) l : forall k,
  (fix go (k : Z) (l : list A) : list B := match l with [] => [] | b :: r => f k b :: go (k + 1) r end) k l =
  map (fun x => f (fst x) (snd x)) (numbered k l).
Proof. induction l as [|b l IH]; intros k; [reflexivity|]. simpl. f_equal. apply IH. Qed.

(** ** Which states the loops reach *)

Definition fresh (t : dtree) (st : state) : Prop := forall d, dtree_contains d t = true -> get (Idx d) st = None.

(** No loop is repeated inside itself. *)
Fixpoint tnodup (t : dtree) : bool :=
  match t with
  | DLeaf => true
  | DNode d bs => forallb (fun b => negb (dtree_contains d b)) bs && forallb tnodup bs
  end.

Lemma dtree_ind' (P : dtree -> Prop) (HL : P DLeaf) (HN : forall d bs, Forall P bs -> P (DNode d bs)) : forall t, P t.
Proof.
  fix F 1. intros [|d bs]; [exact HL|]. apply HN. induction bs; constructor; auto.
Qed.

Lemma with_fresh d v st : get (Idx d) st = None -> with_ [(Idx d, v)] st = st ++ [(Idx d, v)].
Proof.
  intros H. unfold with_. f_equal. unfold remove. induction st as [|[t x] st IH]; [reflexivity|]. cbn [filter map fst].
  cbn [get] in H. destruct (tag_eqb_spec (Idx d) t) as [<-|Hne]; [discriminate|].
  unfold tag_mem. cbn [existsb]. destruct (tag_eqb_spec t (Idx d)) as [E|_]; [congruence|]. simpl. f_equal. apply IH, H.
Qed.

Lemma get_app t st e : get t (st ++ e) = match get t st with Some v => Some v | None => get t e end.
Proof. induction st as [|[t' v] st IH]; [reflexivity|]. simpl. destruct (tag_eqb t t'); auto. Qed.

Section Run.
  Variables (top : struct) (sg : sig).

  (** [visits t st e]: the loops [t], entered with state [st], reach the bottom with state [st ++ e]. *)
  Inductive visits : dtree -> state -> state -> Prop :=
  | v_leaf st : visits DLeaf st []
  | v_dep d bs st d' rs k b e : sig_find_dim d st sg = Some (SDep d' rs) -> 0 <= k -> nthz bs k = Some b ->
      visits b (st ++ [(Idx d, Sta k)]) e -> visits (DNode d bs) st ((Idx d, Sta k) :: e)
  | v_fun d b st d' al r len n i e : sig_find_dim d st sg = Some (SFun d' al r) ->
      length_ top d st = Some len -> vz len = Some n -> 0 <= i < n ->
      visits b (st ++ [(Idx d, Dyn i)]) e -> visits (DNode d [b]) st ((Idx d, Dyn i) :: e).

  Lemma fe_run_dep d bs st d' rs : sig_find_dim d st sg = Some (SDep d' rs) ->
    fe_run top sg (DNode d bs) st = out_cat (map (fun x => fe_run top sg (snd x) (with_ [(Idx d, Sta (fst x))] st)) (numbered 0 bs)).
  Proof.
    intros E. cbn [fe_run]. rewrite E. f_equal. apply (go_numbered (fun k b => fe_run top sg b (with_ [(Idx d, Sta k)] st))).
  Qed.

  Lemma fe_run_fun_inv d bs st d' al r l : sig_find_dim d st sg = Some (SFun d' al r) -> fe_run top sg (DNode d bs) st = Done l ->
    exists b len n, bs = [b] /\ length_ top d st = Some len /\ vz len = Some n /\
      out_cat (map (fun i => fe_run top sg b (with_ [(Idx d, Dyn i)] st)) (zseq n)) = Done l.
  Proof.
    intros E. cbn [fe_run]. rewrite E. destruct (length_ top d st) as [len|]; [|discriminate].
    destruct bs as [|b [|]]; try discriminate. destruct (vz len) as [n|] eqn:En; [|discriminate]. eauto 10.
  Qed.

  Lemma fe_run_cases d bs st l : fe_run top sg (DNode d bs) st = Done l ->
    exists s, sig_find_dim d st sg = Some s /\ match s with SFun _ _ _ | SDep _ _ => True | _ => False end.
  Proof.
    cbn [fe_run]. destruct (sig_find_dim d st sg) as [s|]; [|discriminate]. exists s. destruct s; auto; discriminate.
  Qed.

  Lemma fresh_sub d bs b st v : fresh (DNode d bs) st -> tnodup (DNode d bs) = true -> In b bs ->
    get (Idx d) st = None /\ tnodup b = true /\ fresh b (st ++ [(Idx d, v)]).
  Proof.
    intros Hf Hn Hb. simpl in Hn. apply andb_true_iff in Hn. destruct Hn as [Hn1 Hn2]. rewrite forallb_forall in Hn1, Hn2.
    split; [|split; [auto|]].
    - apply Hf. simpl. rewrite Z.eqb_refl. reflexivity.
    - intros q Hq. rewrite get_app. rewrite Hf.
      + simpl. destruct (Z.eqb_spec q d) as [->|]; [|reflexivity]. specialize (Hn1 _ Hb). rewrite Hq in Hn1. discriminate.
      + simpl. apply orb_true_iff. right. apply existsb_exists. eauto.
  Qed.

  Theorem fe_run_visits t : forall st l, tnodup t = true -> fresh t st -> fe_run top sg t st = Done l ->
    forall leaf, In leaf l <-> exists e, leaf = st ++ e /\ visits t st e.
  Proof.
    induction t as [|d bs IH] using dtree_ind'; intros st l Hn Hf E leaf.
    - inv E. simpl. split.
      + intros [<-|[]]. exists []. rewrite app_nil_r. split; [reflexivity|constructor].
      + intros (e & -> & H). inv H. rewrite app_nil_r. auto.
    - rewrite Forall_forall in IH. destruct (fe_run_cases _ _ _ _ E) as (s & Es & Hs). destruct s as [c| |d' al r|d' rs]; try contradiction.
      + destruct (fe_run_fun_inv _ _ _ _ _ _ _ Es E) as (b & len & n & -> & El & En & E').
        rewrite (out_cat_map_In _ _ _ leaf E'). split.
        * intros (i & y & Hi & Ey & Hy). apply zseq_In in Hi.
          destruct (fresh_sub d [b] b st (Dyn i) Hf Hn (or_introl eq_refl)) as (Hd & Hnb & Hfb).
          rewrite with_fresh in Ey by exact Hd.
          destruct (proj1 (IH b (or_introl eq_refl) _ _ Hnb Hfb Ey leaf) Hy) as (e & -> & Hv).
          exists ((Idx d, Dyn i) :: e). rewrite <- app_assoc. split; [reflexivity|]. eapply v_fun; eauto.
        * intros (e & -> & Hv).
          inversion Hv as [|d1 bs1 st1 d2 rs k b1 e0 F0 Fk Fb Fv|d1 b1 st1 d2 al2 r2 len2 n2 i e0 F0 Fl Fn Fi Fv]; subst;
            [rewrite Es in F0; discriminate|].
          rewrite El in Fl. injection Fl as <-. rewrite En in Fn. injection Fn as <-.
          destruct (fresh_sub d [b] b st (Dyn i) Hf Hn (or_introl eq_refl)) as (Hd & Hnb & Hfb).
          destruct (out_cat_all _ _ _ i E' (proj2 (zseq_In _ _) Fi)) as (y & Ey). exists i, y.
          split; [apply zseq_In; assumption|]. split; [exact Ey|]. rewrite with_fresh in Ey by exact Hd.
          apply (IH b (or_introl eq_refl) _ _ Hnb Hfb Ey). exists e0. rewrite <- app_assoc. auto.
      + rewrite (fe_run_dep _ _ _ _ _ Es) in E. rewrite (out_cat_map_In _ _ _ leaf E). split.
        * intros ([k b] & y & Hk & Ey & Hy). cbn [fst snd] in *. apply numbered_In in Hk. rewrite Z.sub_0_r in Hk.
          destruct Hk as [Hk Hb]. pose proof (nthz_In _ _ _ Hb) as Hin.
          destruct (fresh_sub d bs b st (Sta k) Hf Hn Hin) as (Hd & Hnb & Hfb). rewrite with_fresh in Ey by exact Hd.
          destruct (proj1 (IH b Hin _ _ Hnb Hfb Ey leaf) Hy) as (e & -> & Hv).
          exists ((Idx d, Sta k) :: e). rewrite <- app_assoc. split; [reflexivity|]. eapply v_dep; eauto.
        * intros (e & -> & Hv).
          inversion Hv as [|d1 bs1 st1 d2 rs2 k b e0 F0 Fk Fb Fv|d1 b1 st1 d2 al2 r2 len2 n2 i e0 F0 Fl Fn Fi Fv]; subst;
            [|rewrite Es in F0; discriminate].
          pose proof (nthz_In _ _ _ Fb) as Hin.
          destruct (fresh_sub d bs b st (Sta k) Hf Hn Hin) as (Hd & Hnb & Hfb).
          assert (Hk : In (k, b) (numbered 0 bs)) by (apply numbered_In; rewrite Z.sub_0_r; auto).
          destruct (out_cat_all _ _ _ (k, b) E Hk) as (y & Ey). exists (k, b), y.
          split; [exact Hk|]. split; [exact Ey|]. cbn [fst snd] in Ey. rewrite with_fresh in Ey by exact Hd.
          apply (IH b Hin _ _ Hnb Hfb Ey). exists e0. rewrite <- app_assoc. auto.
  Qed.

  (** ** Every element in range is reached *)

  Lemma sig_find_path q s : forall st l a p node, agree st l a -> spath s a = Some p -> sig_find_dim q st s = Some node ->
    match node with
    | SFun d _ _ => d = q /\ In (q, None) p
    | SDep d rs => d = q /\ In (q, Some (Z.of_nat (List.length rs))) p /\ nthz rs (a q) <> None
    | _ => False
    end.
  Proof.
    induction s as [c| |d al r IH|d rs IH] using sig_ind'; intros st l a p node Ha Ep Ef; try discriminate.
    - simpl in Ep. destruct (spath r a) as [p'|] eqn:Er; [|discriminate]. injection Ep as <-. simpl in Ef.
      destruct (Z.eqb_spec d q) as [->|Hne]; [inv Ef; split; [reflexivity|left; reflexivity]|].
      specialize (IH _ _ _ _ _ Ha Er Ef). destruct node; auto; simpl; tauto.
    - rewrite spath_dep in Ep. destruct (nthz rs (a d)) as [r|] eqn:En; [|discriminate].
      destruct (spath r a) as [p'|] eqn:Er; [|discriminate]. injection Ep as <-. simpl in Ef.
      destruct (Z.eqb_spec d q) as [->|Hne]; [inv Ef; split; [reflexivity|split; [left; reflexivity|congruence]]|].
      destruct (get (Idx d) st) as [v|] eqn:Ev; [|discriminate]. destruct (vstatic v) as [k|] eqn:Ek; [|discriminate].
      assert (a d = k) as Hk.
      { pose proof (ag_idx _ _ _ Ha _ _ Ev) as H. unfold vagree in H. destruct v; simpl in *; try discriminate. congruence. }
      rewrite nthz_map, <- Hk, En in Ef. simpl in Ef. eapply Forall_nthz in IH; [|exact En].
      specialize (IH _ _ _ _ _ Ha Er Ef). destruct node; auto; simpl; tauto.
  Qed.

  (** The tree has as many branches as the tuples. *)
  Fixpoint full (t : dtree) (st : state) : Prop :=
    match t with
    | DLeaf => True
    | DNode d bs =>
        match sig_find_dim d st sg with
        | Some (SDep _ rs) => List.length bs = List.length rs /\
            (fix go (k : Z) (l : list dtree) : Prop :=
               match l with [] => True | b :: r => full b (st ++ [(Idx d, Sta k)]) /\ go (k + 1) r end) 0 bs
        | Some (SFun _ _ _) => match bs with [b] => forall i, full b (st ++ [(Idx d, Dyn i)]) | _ => True end
        | _ => True
        end
    end.

  Lemma full_branches (f : dtree -> Z -> Prop) bs : forall k,
    (fix go (k : Z) (l : list dtree) : Prop := match l with [] => True | b :: r => f b k /\ go (k + 1) r end) k bs <->
    forall j b, nthz bs j = Some b -> f b (k + j).
  Proof.
    induction bs as [|b bs IH]; intros k; simpl.
    - split; [intros _ j b H; discriminate|trivial].
    - rewrite IH. split.
      + intros [H1 H2] j b' E. destruct (Z.eqb_spec j 0) as [->|Hj]; [inv E; rewrite Z.add_0_r; exact H1|].
        replace (k + j) with (k + 1 + (j - 1)) by lia. auto.
      + intros H. split; [rewrite <- (Z.add_0_r k); apply H; reflexivity|]. intros j b' E.
        replace (k + 1 + j) with (k + (j + 1)) by lia. apply H.
        assert (0 <= j).
        { clear -E. revert j E. induction bs as [|x bs IHb]; simpl; intros j E; [discriminate|].
          destruct (Z.eqb_spec j 0); [lia|]. specialize (IHb _ E). lia. }
        destruct (Z.eqb_spec (j + 1) 0); [lia|]. replace (j + 1 - 1) with j by lia. exact E.
  Qed.

  Hypothesis Hsig : signature top = Some sg.
  Hypothesis Hlk : lenok top nolens.

  Lemma agree_snoc st a d v : agree st nolens a -> vagree v (a d) -> get (Idx d) st = None -> agree (st ++ [(Idx d, v)]) nolens a.
  Proof.
    intros [H1 H2] Hv Hd. split; intros q.
    - rewrite get_app. specialize (H1 q). destruct (get (Len q) st); [exact H1|]. exact I.
    - intros w. rewrite get_app. destruct (get (Idx q) st) as [x|] eqn:E; [intros Ex; inv Ex; eauto|].
      simpl. destruct (Z.eqb_spec q d) as [->|]; [|discriminate]. intros Ew. inv Ew. exact Hv.
  Qed.

  Theorem run_complete t : forall st l a p, tnodup t = true -> fresh t st -> fe_run top sg t st = Done l -> full t st ->
    agree st nolens a -> spath sg a = Some p -> (forall d, In (d, None) p -> 0 <= a d < ilen top nolens a d) ->
    (forall d n, In (d, Some n) p -> n < W) ->
    exists e, visits t st e /\ agree (st ++ e) nolens a.
  Proof.
    induction t as [|d bs IH] using dtree_ind'; intros st l a p Hn Hf E Hfull Ha Ep Hr HW.
    - exists []. rewrite app_nil_r. split; [constructor|exact Ha].
    - rewrite Forall_forall in IH. destruct (fe_run_cases _ _ _ _ E) as (s & Es & Hs).
      pose proof (sig_find_path _ _ _ _ _ _ _ Ha Ep Es) as Hp. simpl in Hfull. rewrite Es in Hfull.
      destruct s as [c| |d' al r|d' rs]; try contradiction.
      + destruct Hp as [-> Hp]. destruct (fe_run_fun_inv _ _ _ _ _ _ _ Es E) as (b & len & n & -> & El & En & E').
        pose proof (length_agree top ltac:(congruence) _ _ _ _ _ Hlk Ha El) as Hv. unfold vagree in Hv. rewrite En in Hv.
        specialize (Hr _ Hp) as Hi. rewrite <- Hv in Hi. pose proof (vz_range _ _ En) as HnW.
        destruct (fresh_sub d [b] b st (Dyn (a d)) Hf Hn (or_introl eq_refl)) as (Hd & Hnb & Hfb).
        destruct (out_cat_all _ _ _ (a d) E' (proj2 (zseq_In _ _) Hi)) as (y & Ey). rewrite with_fresh in Ey by exact Hd.
        destruct (IH b (or_introl eq_refl) _ y a p Hnb Hfb Ey (Hfull (a d))) as (e & Hv' & Hae); auto.
        * apply agree_snoc; auto. unfold vagree. simpl. apply u64_small. lia.
        * exists ((Idx d, Dyn (a d)) :: e). rewrite <- app_assoc in Hae. split; [|exact Hae]. eapply v_fun; eauto.
      + destruct Hp as (-> & Hp & Hk). rewrite (fe_run_dep _ _ _ _ _ Es) in E. destruct Hfull as [HL Hfull].
        rewrite (full_branches (fun b k => full b (st ++ [(Idx d, Sta k)]))) in Hfull.
        assert (Hlt : 0 <= a d < Z.of_nat (List.length rs)).
        { destruct (nthz rs (a d)) eqn:En; [|congruence]. eapply nthz_Some_range; eauto. }
        destruct (nthz_range_Some bs (a d) ltac:(lia)) as [b Hb]. pose proof (nthz_In _ _ _ Hb) as Hin.
        destruct (fresh_sub d bs b st (Sta (a d)) Hf Hn Hin) as (Hd & Hnb & Hfb).
        assert (Hk' : In (a d, b) (numbered 0 bs)) by (apply numbered_In; rewrite Z.sub_0_r; split; [lia|exact Hb]).
        destruct (out_cat_all _ _ _ (a d, b) E Hk') as (y & Ey). cbn [fst snd] in Ey. rewrite with_fresh in Ey by exact Hd.
        specialize (HW _ _ Hp) as HdW. specialize (Hfull _ _ Hb). rewrite Z.add_0_l in Hfull.
        destruct (IH b Hin _ y a p Hnb Hfb Ey Hfull) as (e & Hv' & Hae); auto.
        * apply agree_snoc; auto. unfold vagree. simpl. apply u64_small. lia.
        * exists ((Idx d, Sta (a d)) :: e). rewrite <- app_assoc in Hae. split; [|exact Hae]. eapply v_dep; eauto. lia.
  Qed.
End Run.

(** ** The order of the calls *)

(** Lexicographic order of index lists. *)
Lemma lexlt_app p a b : lexlt a b -> lexlt (p ++ a) (p ++ b).
Proof. induction p; simpl; auto. Qed.

Lemma lexlt_irrefl a : ~ lexlt a a.
Proof. induction a as [|x a IH]; simpl; [auto|]. intros [H|[_ H]]; [lia|auto]. Qed.

(** The values of the indices, in the order of the loops. *)
Definition values (st : state) : list Z := map (fun x => vzd (snd x)) st.

Lemma values_app a b : values (a ++ b) = values a ++ values b.
Proof. apply map_app. Qed.

Lemma ssorted_app {A} (R : A -> A -> Prop) l m : StronglySorted R l -> StronglySorted R m ->
  (forall x y, In x l -> In y m -> R x y) -> StronglySorted R (l ++ m).
Proof.
  induction 1 as [|x l Hl IH Hx]; intros Hm H; simpl; [exact Hm|]. constructor.
  - apply IH; [exact Hm|]. intros a b Ha Hb. apply H; [right; exact Ha|exact Hb].
  - apply Forall_app. split; [exact Hx|]. apply Forall_forall. intros y Hy. apply H; [left; reflexivity|exact Hy].
Qed.

Lemma ssorted_cat {A B} (R : B -> B -> Prop) (S : A -> A -> Prop) (f : A -> outcome (list B)) l x :
  StronglySorted S l -> out_cat (map f l) = Done x ->
  (forall a y, In a l -> f a = Done y -> StronglySorted R y) ->
  (forall a b y z, S a b -> In a l -> In b l -> f a = Done y -> f b = Done z -> forall u v, In u y -> In v z -> R u v) ->
  StronglySorted R x.
Proof.
  revert x. induction l as [|a l IH]; simpl; intros x HS E H1 H2; [inv E; constructor|].
  destruct (f a) as [| |y] eqn:Ea; try discriminate. simpl in E.
  destruct (out_cat (map f l)) as [| |z] eqn:Ez; try discriminate. inv E. inv HS.
  apply ssorted_app; [apply (H1 a); auto|apply IH; auto|].
  - intros b w Hb. apply (H1 b). auto.
  - intros b c w z' Hbc Hb Hc. apply (H2 b c); auto.
  - intros u v Hu Hv. apply (out_cat_map_In _ _ _ v Ez) in Hv. destruct Hv as (b & w & Hb & Eb & Hv).
    rewrite Forall_forall in H4. eapply (H2 a b); eauto.
Qed.

Lemma zseq_sorted n : StronglySorted Z.lt (zseq n).
Proof.
  unfold zseq. generalize 0%nat at 1. generalize (Z.to_nat n). intros m. induction m as [|m IH]; intros k; simpl; constructor; auto.
  apply Forall_forall. intros y Hy. apply in_map_iff in Hy. destruct Hy as (j & <- & Hj). apply in_seq in Hj. lia.
Qed.

Lemma numbered_sorted {A} (l : list A) : forall k, StronglySorted (fun a b => fst a < fst b) (numbered k l).
Proof.
  induction l as [|x l IH]; intros k; simpl; constructor; auto. apply Forall_forall. intros [j y] H.
  apply numbered_In in H. simpl. lia.
Qed.

(** Every tuple has a representable number of components. *)
Fixpoint tsmall (t : dtree) : bool :=
  match t with
  | DLeaf => true
  | DNode d bs => (Z.of_nat (List.length bs) <? W) && forallb tsmall bs
  end.

Theorem run_sorted top sg t : forall st l, tnodup t = true -> tsmall t = true -> fresh t st -> fe_run top sg t st = Done l ->
  StronglySorted lexlt (map values l).
Proof.
  assert (Hmap : forall l, StronglySorted (fun a b => lexlt (values a) (values b)) l -> StronglySorted lexlt (map values l)).
  { induction 1 as [|x l Hl IH Hx]; simpl; constructor; auto. apply Forall_map. exact Hx. }
  intros st l Hn Hw Hf E. apply Hmap. revert st l Hn Hw Hf E.
  induction t as [|d bs IH] using dtree_ind'; intros st l Hn Hw Hf E.
  - inv E. constructor; constructor.
  - rewrite Forall_forall in IH. simpl in Hw. apply andb_true_iff in Hw. destruct Hw as [HW Hw]. rewrite forallb_forall in Hw.
    destruct (fe_run_cases _ _ _ _ _ _ E) as (s & Es & Hs). destruct s as [c| |d' al r|d' rs]; try contradiction.
    + destruct (fe_run_fun_inv _ _ _ _ _ _ _ _ _ Es E) as (b & len & n & -> & El & En & E'). pose proof (vz_range _ _ En) as HnW.
      destruct (fresh_sub d [b] b st (Dyn 0) Hf Hn (or_introl eq_refl)) as (Hd & Hnb & _).
      refine (ssorted_cat _ _ _ _ _ (zseq_sorted n) E' _ _).
      * intros i y Hi Ey. rewrite with_fresh in Ey by exact Hd.
        destruct (fresh_sub d [b] b st (Dyn i) Hf Hn (or_introl eq_refl)) as (_ & _ & Hfb).
        exact (IH b (or_introl eq_refl) _ y Hnb (Hw b (or_introl eq_refl)) Hfb Ey).
      * intros i j y z Hij Hi Hj Ey Ez u v Hu Hv. rewrite with_fresh in Ey, Ez by exact Hd. apply zseq_In in Hi, Hj.
        destruct (fresh_sub d [b] b st (Dyn i) Hf Hn (or_introl eq_refl)) as (_ & _ & Hfi).
        destruct (fresh_sub d [b] b st (Dyn j) Hf Hn (or_introl eq_refl)) as (_ & _ & Hfj).
        destruct (proj1 (fe_run_visits _ _ _ _ _ Hnb Hfi Ey u) Hu) as (e & -> & _).
        destruct (proj1 (fe_run_visits _ _ _ _ _ Hnb Hfj Ez v) Hv) as (e' & -> & _).
        rewrite <- !app_assoc, !values_app. apply lexlt_app. simpl. left. unfold vzd. simpl. rewrite !u64_small by lia. exact Hij.
    + rewrite (fe_run_dep _ _ _ _ _ _ _ Es) in E.
      refine (ssorted_cat _ _ _ _ _ (numbered_sorted bs 0) E _ _).
      * intros [k b] y Hk Ey. apply numbered_In in Hk. destruct Hk as [_ Hk]. apply nthz_In in Hk. cbn [fst snd] in Ey.
        destruct (fresh_sub d bs b st (Sta k) Hf Hn Hk) as (Hd & Hnb & Hfb). rewrite with_fresh in Ey by exact Hd.
        exact (IH b Hk _ y Hnb (Hw b Hk) Hfb Ey).
      * intros [i b] [j c] y z Hij Hi Hj Ey Ez u v Hu Hv. cbn [fst snd] in *. apply numbered_In in Hi, Hj.
        rewrite Z.sub_0_r in Hi, Hj. destruct Hi as [_ Hi], Hj as [_ Hj].
        pose proof (nthz_Some_range _ _ _ Hi) as Ri. pose proof (nthz_Some_range _ _ _ Hj) as Rj. apply nthz_In in Hi, Hj.
        destruct (fresh_sub d bs b st (Sta i) Hf Hn Hi) as (Hd & Hnb & Hfb).
        destruct (fresh_sub d bs c st (Sta j) Hf Hn Hj) as (_ & Hnc & Hfc).
        rewrite with_fresh in Ey, Ez by exact Hd.
        destruct (proj1 (fe_run_visits _ _ _ _ _ Hnb Hfb Ey u) Hu) as (e & -> & _).
        destruct (proj1 (fe_run_visits _ _ _ _ _ Hnc Hfc Ez v) Hv) as (e' & -> & _).
        rewrite <- !app_assoc, !values_app. apply lexlt_app. simpl. left. unfold vzd. simpl. rewrite !u64_small by lia. exact Hij.
Qed.
