(** * Several structures traversed together (C13) *)

From Verif Require Export SpecUnion Sections.

Lemma no_tuples_path ss sg : no_tuples ss -> signature (Union ss) = Some sg ->
  plain sg = true /\ forall s, In s ss -> exists sgs, signature s = Some sgs /\ plain sgs = true /\ incl (sdims sgs) (sdims sg).
Proof.
  intros Hn Es. destruct (signature_Union_inv _ _ Es) as (s0 & rest & F & Eu).
  assert (Hp : forall s x, In s ss -> signature s = Some x -> plain x = true).
  { intros s x Hin E. specialize (Hn s Hin). unfold nodep in Hn. rewrite E in Hn. exact Hn. }
  split.
  - eapply union_plain; eauto. inversion F as [|t ? l ? E0 F0]; subst. apply (Hp t); [left; reflexivity|exact E0].
  - intros s Hin. assert (Hx : exists x, signature s = Some x /\ In x (s0 :: rest)).
    { clear -F Hin. induction F as [|a b l m Hab F IH]; [destruct Hin|]. destruct Hin as [->|Hin]; [exists b; split; [exact Hab|left; reflexivity]|].
      destruct (IH Hin) as (x & E & Hx). exists x. split; [exact E|right; exact Hx]. }
    destruct Hx as (x & E & Hx). exists x. split; [exact E|]. split; [eapply Hp; eauto|]. intros q Hq. apply accept_sdims in Hq. apply accept_sdims.
    eapply union_accepts; eauto.
Qed.

Lemma remove_nolen st ts : (forall d, get (Len d) st = None) -> forall d, get (Len d) (remove ts st) = None.
Proof.
  intros H d. specialize (H d). induction st as [|[t v] st IH]; [reflexivity|]. cbn [get] in H. unfold remove in *. cbn [filter fst].
  destruct (tag_eqb_spec (Len d) t) as [E|E]; [discriminate|]. destruct (negb _); [|apply IH, H].
  cbn [get]. destruct (tag_eqb_spec (Len d) t); [contradiction|]. apply IH, H.
Qed.

Theorem union_names ss l st s : distinct_dims (Union ss) -> lenok (Union ss) nolens -> no_tuples ss -> consistent ss ->
  for_each (traverser ss) [] = Done l -> In st l -> In s ss -> exists p, names_element s st p.
Proof.
  intros Hd Hlk Hn Hc E Hin Hs. pose proof (for_each_enumerates ss l Hd Hlk E) as He.
  destruct (en_sound _ _ He st Hin) as (p & Hp & Hr).
  assert (Hl : forall d, get (Len d) st = None).
  { destruct (each_run (traverser ss) l ltac:(discriminate) Hd E) as (sg & sts & Es & Er & _ & F).
    change (top_struct (traverser ss)) with (Union ss) in *. change (tr_struct (traverser ss)) with (Union ss) in F.
    pose proof (run_nolen _ _ _ Es (distinct_snodup _ _ Hd Es) Er) as Hnl. destruct (Forall2_In_r _ _ _ _ F Hin) as (e & Hee & s' & Es' & G).
    apply state_at_self in Es'; [|discriminate]. subst s'. intros d. rewrite <- (proj2 (G d)). apply Hnl, Hee. }
  unfold dims_of in Hp. destruct (signature (Union ss)) as [sg|] eqn:Es; [|discriminate]. cbn [obind] in Hp.
  destruct (no_tuples_path ss sg Hn Es) as [Hpl Hall]. destruct (Hall s Hs) as (sgs & Ess & Hps & Hi).
  rewrite (plain_path sg _ Hpl) in Hp. injection Hp as <-.
  exists (map (fun d => (d, None)) (sdims sgs)). split; [unfold dims_of; rewrite Ess; cbn [obind]; apply plain_path, Hps|].
  intros d k Hk. apply in_map_iff in Hk. destruct Hk as (x & Ex & Hx). injection Ex as -> <-.
  specialize (Hr d None ltac:(apply in_map_iff; exists d; split; [reflexivity|apply Hi, Hx])). cbn in Hr.
  destruct Hr as (ds & len & n & i & z & Hds & El & En & Ei & Ez & Hlt).
  destruct (Hc s d (remove (map Idx ds) st) len n Hs) as (len' & n' & El' & En' & Hle); auto.
  - unfold has_dim. rewrite Ess. apply accept_sdims, Hx.
  - apply remove_nolen, Hl.
  - exists ds, len', n', i, z. repeat (split; [assumption|]). lia.
Qed.

Theorem union_dims ss st p : no_tuples ss -> dims_of (Union ss) st = Some p ->
  forall q, In q (map fst p) <-> exists s, In s ss /\ has_dim s q.
Proof.
  intros Hn Hp q. unfold dims_of in Hp. destruct (signature (Union ss)) as [sg|] eqn:Es; [|discriminate]. cbn [obind] in Hp.
  destruct (no_tuples_path ss sg Hn Es) as [Hpl Hall]. rewrite (plain_path sg _ Hpl) in Hp. injection Hp as <-. rewrite map_map, map_id. split.
  - intros Hq. apply accept_sdims in Hq. destruct (signature_Union_inv _ _ Es) as (s0 & rest & F & Eu).
    destruct (union_accept _ _ _ _ Eu Hq) as (x & Hx & Ha). destruct (Forall2_In_r _ _ _ _ F Hx) as (s & Hs & Ex).
    exists s. split; [exact Hs|]. unfold has_dim. rewrite Ex. exact Ha.
  - intros (s & Hs & Hq). destruct (Hall s Hs) as (sgs & Ess & _ & Hi). unfold has_dim in Hq. rewrite Ess in Hq. apply Hi, accept_sdims, Hq.
Qed.
