(** * What a planner runs (C31) *)

From Verif Require Export PlanFacts.

Lemma over_full u top l : over hands_on u top l -> forall sg sgu st s, (forall v t, u <> View v t) -> uswf top = true -> signature top = Some sg -> signature u = Some sgu ->
  state_at u top st = Some s -> full sgu s = true -> full sg st = true.
Proof.
  induction 1 as [l Hl|v t l Hp Ho IH]; intros sg sgu st s Hx Hw Hs Hu Es Hf.
  - assert (sg = sgu) by congruence. subst sgu. rewrite (state_at_self u st s Hx Es) in Hf. exact Hf.
  - rewrite state_at_view in Es by (destruct u; try reflexivity; exfalso; eapply Hx; reflexivity).
    destruct (sub_state v t st) as [st'|] eqn:E1; [|discriminate]. cbn [obind] in Es. cbn [signature] in Hs. destruct (signature t) as [s1|] eqn:Et; [|discriminate].
    cbn [obind] in Hs. cbn [uswf] in Hw. assert (Hwt : uswf t = true) by (apply andb_true_iff in Hw; tauto).
    refine (view_full v t l s1 sg st st' Et _ Hs E1 Hp _); [eapply uswf_snodup; eauto|]. apply (IH s1 sgu st' s Hx Hwt eq_refl Hu Es Hf).
Qed.

Lemma out_cat_agree {A B} (f g : A -> outcome (list B)) l : (forall a, In a l -> f a <> Rejected -> g a = f a) ->
  out_cat (map f l) <> Rejected -> out_cat (map g l) = out_cat (map f l).
Proof.
  induction l as [|a l IH]; intros H Hr; [reflexivity|]. cbn [map out_cat] in *. destruct (f a) as [| |x] eqn:E; cbn [out_bind] in *; [contradiction| |].
  - rewrite (H a (or_introl eq_refl)), E; [reflexivity|congruence].
  - rewrite (H a (or_introl eq_refl)), E by congruence. cbn [out_bind]. rewrite IH; [reflexivity|intros b Hb; apply H; right; exact Hb|]. intros E1. rewrite E1 in Hr. contradiction.
Qed.

(** ** Without endings above the innermost loop, all loops are run *)

Definition extends (st st2 : state) : Prop := forall q v, get (Idx q) st = Some v -> get (Idx q) st2 = Some v.

Lemma extends_with st d v st2 : get (Idx d) st = None -> extends (with_ [(Idx d, v)] st) st2 -> extends st st2 /\ get (Idx d) st2 = Some v.
Proof.
  intros Hd H. split.
  - intros q w Hq. apply H. rewrite get_with. cbn [get tag_eqb]. destruct (Z.eqb_spec q d) as [->|]; [congruence|exact Hq].
  - apply H. rewrite get_with. cbn [get tag_eqb]. rewrite Z.eqb_refl. reflexivity.
Qed.

Section Loops.
  Variables (top : struct) (sg : sig) (act : state -> option bool).
  Hypothesis Hact : forall st, act st = Some true -> full sg st = true.

  (** The loops around [s] have been entered, those inside have not. *)
  Definition at_loop (s : sig) (st : state) : Prop :=
    snodup s = true /\ (forall q, any_accept q s = true -> get (Idx q) st = None) /\ (forall st2, extends st st2 -> full sg st2 = true -> full s st2 = true).

  Lemma at_loop_fun d al r st v : at_loop (SFun d al r) st -> at_loop r (with_ [(Idx d, v)] st).
  Proof.
    intros (Hn & Hf & H). apply snodup_fun in Hn. destruct Hn as [Hd Hn]. assert (Hgd : get (Idx d) st = None) by (apply Hf; simpl; rewrite Z.eqb_refl; reflexivity).
    split; [exact Hn|]. split.
    - intros q Hq. rewrite get_with. cbn [get tag_eqb]. destruct (Z.eqb_spec q d) as [->|]; [congruence|]. apply Hf. simpl. rewrite Hq. apply orb_true_r.
    - intros st2 He Hs. destruct (extends_with st d v st2 Hgd He) as [He1 _]. pose proof (H st2 He1 Hs) as Hr. cbn [full] in Hr. apply andb_true_iff in Hr. apply Hr.
  Qed.

  Lemma at_loop_dep d rs r st k : at_loop (SDep d rs) st -> nthz rs k = Some r -> at_loop r (with_ [(Idx d, Sta k)] st).
  Proof.
    intros (Hn & Hf & H) Hk. destruct (snodup_dep _ _ _ _ Hn Hk) as [Hd Hnr]. assert (Hgd : get (Idx d) st = None) by (apply Hf; simpl; rewrite Z.eqb_refl; reflexivity).
    split; [exact Hnr|]. split.
    - intros q Hq. rewrite get_with. cbn [get tag_eqb]. destruct (Z.eqb_spec q d) as [->|]; [congruence|]. apply Hf. simpl. apply orb_true_iff. right. apply existsb_exists. exists r. split; [eapply nthz_In; eauto|exact Hq].
    - intros st2 He Hs. destruct (extends_with st d _ st2 Hgd He) as [He1 Hg]. pose proof (H st2 He1 Hs) as Hr. apply full_dep in Hr. destruct Hr as (v & j & Hv & Hj & Hr).
      apply Hr. assert (v = Sta k) by congruence. subst v. cbn [vstatic] in Hj. injection Hj as <-. rewrite u64_small; [exact Hk|].
      cbn [snodup] in Hn. apply andb_true_iff in Hn. destruct Hn as [Hl _]. apply Z.ltb_lt in Hl. apply nthz_Some_range in Hk. lia.
  Qed.

  Lemma at_loop_dyn d r st i : at_loop (SDep d [r]) st -> at_loop r (with_ [(Idx d, Dyn i)] st).
  Proof.
    intros Hl. destruct (at_loop_dep d [r] r st 0 Hl eq_refl) as (A1 & A2 & A3).
    split; [exact A1|]. split.
    - intros q Hq. specialize (A2 q Hq). rewrite get_with in *. cbn [get tag_eqb] in *. destruct (q =? d); [discriminate|exact A2].
    - intros st2 He Hs. destruct Hl as (_ & B2 & B3). assert (Hgd : get (Idx d) st = None) by (apply B2; simpl; rewrite Z.eqb_refl; reflexivity).
      destruct (extends_with st d _ st2 Hgd He) as [He1 Hg]. pose proof (B3 st2 He1 Hs) as Hr. apply full_dep in Hr. destruct Hr as (w & j & Hv & Hj & Hr). assert (w = Dyn i) by congruence. subst w. discriminate.
  Qed.

  Lemma not_yet s st d : at_loop s st -> any_accept d s = true -> (exists al r, s = SFun d al r) \/ (exists rs, s = SDep d rs) -> act st <> Some true.
  Proof.
    intros (_ & Hf & H) Ha Hs E. pose proof (H st (fun q v Hv => Hv) (Hact st E)) as Hfull. pose proof (Hf d Ha) as Hg.
    destruct Hs as [(al & r & ->)|(rs & ->)]; cbn [full] in Hfull; rewrite ?has_get, Hg in Hfull; discriminate.
  Qed.

  Lemma loops_ok (ok ok' : state -> bool) s : (forall st, ok st = true -> ok' st = true) -> forall st, at_loop s st -> pe_ok top sg act ok (sig_dim_tree s) st = true -> fe_ok top sg ok' (sig_dim_tree s) st = true.
  Proof.
    intros Hok. induction s as [c| |d al r IH|d rs IH] using sig_ind'; intros st Hl H.
    - cbn in *. destruct (act st) as [[|]|]; try discriminate. apply Hok, H.
    - cbn in *. destruct (act st) as [[|]|]; try discriminate. apply Hok, H.
    - assert (Hn : act st <> Some true) by (apply (not_yet _ _ d Hl); [simpl; rewrite Z.eqb_refl; reflexivity|eauto]).
      cbn [pe_ok fe_ok sig_dim_tree] in *. destruct (act st) as [[|]|]; [contradiction| |discriminate]. destruct (sig_find_dim d st sg) as [[c| |d' al' r'|d' rs']|]; try discriminate.
      destruct (length_ top d st); [|discriminate]. apply IH; [apply (at_loop_fun d al), Hl|exact H].
    - assert (Hn : act st <> Some true) by (apply (not_yet _ _ d Hl); [simpl; rewrite Z.eqb_refl; reflexivity|eauto]).
      change (sig_dim_tree (SDep d rs)) with (DNode d (map sig_dim_tree rs)) in *.
      cbn [pe_ok fe_ok] in *. destruct (act st) as [[|]|]; [contradiction| |discriminate]. destruct (sig_find_dim d st sg) as [[c| |d' al' r'|d' rs']|]; try discriminate.
      destruct (length_ top d st); [|discriminate]. destruct rs as [|r [|]]; try discriminate. inversion IH as [|? ? IHr _]; subst. apply IHr; [|exact H]. apply at_loop_dyn, Hl.
  Qed.

  Lemma pe_run_fun d bs st : act st = Some false -> pe_run top sg act (DNode d bs) st <> Rejected ->
    exists b len, bs = [b] /\ length_ top d st = Some len /\ ((exists n, vz len = Some n /\ pe_run top sg act (DNode d bs) st = out_cat (map (fun i => pe_run top sg act b (with_ [(Idx d, Dyn i)] st)) (zseq n)) /\
        fe_run top sg (DNode d bs) st = out_cat (map (fun i => fe_run top sg b (with_ [(Idx d, Dyn i)] st)) (zseq n))) \/
      (vz len = None /\ pe_run top sg act (DNode d bs) st = Undefined /\ fe_run top sg (DNode d bs) st = Undefined)).
  Proof.
    intros Ea H. cbn [pe_run fe_run] in *. rewrite Ea in *. destruct (sig_find_dim d st sg) as [[c| |d' al' r'|d' rs']|]; try contradiction.
    destruct (length_ top d st) as [len|]; [|contradiction]. destruct bs as [|b [|]]; try contradiction. exists b, len. split; [reflexivity|]. split; [reflexivity|].
    destruct (vz len) as [n|]; [left; exists n|right]; auto.
  Qed.

  Lemma loops_run s : forall st, at_loop s st -> pe_run top sg act (sig_dim_tree s) st <> Rejected -> fe_run top sg (sig_dim_tree s) st = pe_run top sg act (sig_dim_tree s) st.
  Proof.
    assert (Hgen : forall d s st bs, sig_dim_tree s = DNode d bs -> (exists al r, s = SFun d al r) \/ (exists rs, s = SDep d rs) ->
      (forall b i, bs = [b] -> pe_run top sg act b (with_ [(Idx d, Dyn i)] st) <> Rejected -> fe_run top sg b (with_ [(Idx d, Dyn i)] st) = pe_run top sg act b (with_ [(Idx d, Dyn i)] st)) ->
      at_loop s st -> pe_run top sg act (sig_dim_tree s) st <> Rejected -> fe_run top sg (sig_dim_tree s) st = pe_run top sg act (sig_dim_tree s) st).
    { clear s. intros d s st bs Et Hs H2 Hl H. assert (Hn : act st <> Some true).
      { apply (not_yet _ _ d Hl); [|exact Hs]. destruct Hs as [(al & r & ->)|(rs & ->)]; simpl; rewrite Z.eqb_refl; reflexivity. }
      rewrite Et in *. destruct (act st) as [[|]|] eqn:Ea; [contradiction| |cbn [pe_run] in H; rewrite Ea in H; contradiction].
      destruct (pe_run_fun d bs st Ea H) as (b & len & -> & El & [(n & En & E1 & E2)|(En & E1 & E2)]); rewrite E1 in H |- *; rewrite E2; [|reflexivity].
      apply out_cat_agree; [|exact H]. intros i Hi Hr. apply H2; auto. }
    induction s as [c| |d al r IH|d rs IH] using sig_ind'; intros st Hl H.
    - cbn in *. destruct (act st) as [[|]|]; try contradiction. reflexivity.
    - cbn in *. destruct (act st) as [[|]|]; try contradiction. reflexivity.
    - apply (Hgen d (SFun d al r) st [sig_dim_tree r]); [reflexivity|eauto| |exact Hl|exact H].
      intros b i Hb Hr. injection Hb as <-. apply IH; [apply (at_loop_fun d al), Hl|exact Hr].
    - rewrite Forall_forall in IH. apply (Hgen d (SDep d rs) st (map sig_dim_tree rs)); [reflexivity|eauto| |exact Hl|exact H].
      intros b i Hb Hr. destruct rs as [|r [|]]; try discriminate. injection Hb as <-. apply IH; [left; reflexivity|apply at_loop_dyn, Hl|exact Hr].
  Qed.
End Loops.

(** ** [for_each] *)

Lemma activated_full p st f sg sgu : pl_endings p = [{| en_sig := sgu; en_kind := Body; en_fun := f |}] ->
  (forall v t, tr_struct (pl_trav p) <> View v t) -> over hands_on (tr_struct (pl_trav p)) (top_struct (pl_trav p)) nolens -> uswf (top_struct (pl_trav p)) = true ->
  signature (top_struct (pl_trav p)) = Some sg -> signature (tr_struct (pl_trav p)) = Some sgu -> snodup sgu = true -> activated p st = Some true -> full sg st = true.
Proof.
  intros He Hx Ho Hw Hs Hu Hn Ha. unfold activated in Ha. destruct (state_at _ _ st) as [s|] eqn:Es; [|discriminate]. cbn [obind] in Ha. rewrite He in Ha. unfold endings_fix in Ha. cbn [omap en_sig] in Ha.
  destruct (sig_fix s sgu) as [g|] eqn:Eg; [|discriminate]. cbn in Ha. destruct (ground g) eqn:Egr.
  - refine (over_full _ _ _ Ho sg sgu st s Hx Hw Hs Hu Es _). eapply ground_full; eauto.
  - cbn in Ha. unfold endings_ok in Ha. cbn in Ha. rewrite Egr in Ha. cbn in Ha. discriminate.
Qed.

Lemma over_uswf P u s l : over P u s l -> uswf s = true -> uswf u = true.
Proof. induction 1 as [l Hl|v t l Hp Ho IH]; intros Hw; [exact Hw|]. cbn [uswf] in Hw. apply andb_true_iff in Hw. apply IH, Hw. Qed.

Theorem execute_for_each t f p : (forall v u, tr_struct t <> View v u) -> over hands_on (tr_struct t) (top_struct t) nolens -> uswf (top_struct t) = true ->
  pl_for_each {| pl_trav := t; pl_endings := [] |} f = Some p -> execute p <> Rejected -> execute p = out_map (map (CallBody f)) (for_each t []).
Proof.
  intros Hx Ho Hw Hp He. unfold pl_for_each in Hp. cbn [pl_endings pl_trav] in Hp. destruct (signature (tr_struct t)) as [sgu|] eqn:Eu; [|discriminate]. cbn [obind] in Hp.
  set (es := [{| en_sig := sgu; en_kind := Body; en_fun := f |}]) in *. assert (Ep : p = {| pl_trav := t; pl_endings := es |}) by congruence. subst p. clear Hp.
  pose proof (over_uswf _ _ _ _ Ho Hw) as Hwu. pose proof (uswf_snodup _ _ Hwu Eu) as Hnu.
  unfold execute in *. cbn [pl_endings pl_trav] in *. change es with ({| en_sig := sgu; en_kind := Body; en_fun := f |} :: []) in He at 1. change es with ({| en_sig := sgu; en_kind := Body; en_fun := f |} :: []) at 1.
  cbv iota in *. unfold for_each, for_sections_with, for_tree, sections_tree. destruct (signature (top_struct t)) as [sg|] eqn:Es; [|contradiction].
  cbn [obind]. set (p := {| pl_trav := t; pl_endings := es |}) in *. pose proof (uswf_snodup _ _ Hw Es) as Hn.
  assert (Hact : forall st, activated p st = Some true -> full sg st = true) by (intros st Ha; exact (activated_full p st f sg sgu eq_refl Hx Ho Hw Es Eu Hnu Ha)).
  assert (Hl : at_loop sg sg []) by (split; [exact Hn|split; [reflexivity|auto]]).
  assert (Hfire : forall st, match fire (fixed p st) with Some c => exists s, tr_state (inner t st) = Some s /\ c = CallBody f s | None => True end).
  { intros st. unfold fire. change (pl_trav (fixed p st)) with (inner t st). destruct (tr_state (inner t st)) as [s|]; [|exact I]. cbn [obind]. change (pl_endings (fixed p st)) with es. unfold endings_fix, es. cbn [omap en_sig].
    destruct (sig_fix s sgu) as [g|]; [|exact I]. cbn. destruct (ground g) eqn:Eg; cbn; rewrite ?Eg; cbn; [eauto|exact I]. }
  destruct (pe_ok _ _ _ _ _ _) eqn:Eok; [|contradiction].
  assert (Hok : fe_ok (top_struct t) sg (fun st => inner_ok t st && state_ok t st) (sig_dim_tree sg) [] = true).
  { refine (loops_ok (top_struct t) sg (activated p) Hact (fire_ok p) _ sg _ [] Hl Eok). intros st Hf. unfold fire_ok in Hf. change (pl_trav p) with t in Hf. apply andb_true_iff in Hf. destruct Hf as [F1 F2]. rewrite F1. cbn [andb].
    specialize (Hfire st). destruct (fire (fixed p st)); [|discriminate]. destruct Hfire as (s & E & _). unfold state_ok. rewrite E. reflexivity. }
  rewrite Hok. assert (Hr : pe_run (top_struct t) sg (activated p) (sig_dim_tree sg) [] <> Rejected) by (intros E; rewrite E in He; contradiction).
  rewrite (loops_run (top_struct t) sg (activated p) Hact sg [] Hl Hr). destruct (pe_run _ _ _ _ _) as [| |sts]; [contradiction|reflexivity|]. cbn [out_map out_bind] in *.
  assert (Hm : match omap (fun st => fire (fixed p st)) sts with Some l => exists ss, omap tr_state (map (inner t) sts) = Some ss /\ l = map (CallBody f) ss | None => True end).
  { clear He Hr. induction sts as [|st sts IH]; [exists []; split; reflexivity|]. cbn [omap map]. specialize (Hfire st). destruct (fire (fixed p st)) as [c|]; [|exact I]. destruct Hfire as (s & E & ->). cbn [obind].
    destruct (omap (fun st0 => fire (fixed p st0)) sts) as [l|]; [|exact I]. cbn [obind].
    destruct IH as (ss & E1 & ->). exists (s :: ss). rewrite E, E1. split; reflexivity. }
  destruct (omap (fun st => fire (fixed p st)) sts) as [l|]; [|contradiction]. destruct Hm as (ss & E1 & ->). rewrite E1. reflexivity.
Qed.
