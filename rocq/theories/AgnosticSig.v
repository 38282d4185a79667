(** * Orders stated by a program: signatures *)

From Coq Require Import Permutation Sorted.
From Verif Require Import SpecAgnostic.
From Verif Require Export KernelThms Views2.
From Verif Require Import ReduceBagThms Sections3.

(** ** Signatures of structures used as documented end in elements *)

Lemma sreplace_ends ds f s : (forall o o', sig_complete o = true -> f o = Some o' -> sig_complete o' = true) ->
  forall s', sig_complete s = true -> sreplace ds f s = Some s' -> sig_complete s' = true.
Proof.
  intros Hf. induction s as [c| |d al r IH|d rs IH] using sig_ind'; intros s' Hc E; cbn [sreplace] in E; [inv E; exact Hc|discriminate| |].
  - destruct (mem d ds); [eapply Hf; eauto|]. destruct (sreplace ds f r) as [r'|]; [|discriminate]. inv E. cbn [sig_complete] in *. apply IH; auto.
  - destruct (mem d ds); [eapply Hf; eauto|]. destruct (omap (sreplace ds f) rs) as [rs'|] eqn:Eo; [|discriminate]. inv E. cbn [sig_complete] in *.
    rewrite forallb_forall in Hc. apply forallb_forall. intros r' Hr'. apply (omap_Some_In _ _ _ Eo) in Hr'. destruct Hr' as (r & Hr & Er). rewrite Forall_forall in IH. eapply IH; eauto.
Qed.

Lemma pick_ends rs n f rs' : forallb sig_complete rs = true -> pick_sigs rs n f = Some rs' -> forallb sig_complete rs' = true.
Proof.
  unfold pick_sigs. intros Hc E. destruct (n <=? _); [|discriminate]. rewrite forallb_forall in Hc. apply forallb_forall. intros r Hr.
  apply (omap_Some_In _ _ _ E) in Hr. destruct Hr as (i & _ & Ei). apply Hc. eapply nthz_In; eauto.
Qed.

Lemma zc_ends ds d n : forall acc o o', sig_complete o = true -> zc_replace n acc d ds o = Some o' -> sig_complete o' = true.
Proof.
  induction n as [|n IH]; intros acc [c| |x al r|x rs] o' Hc E; cbn [zc_replace] in E; try discriminate.
  destruct n as [|n]; [inv E; exact Hc|]. cbn [sig_complete] in Hc. eapply sreplace_ends; [|exact Hc|exact E]. intros a b Ha Hb. eapply IH; [exact Ha|exact Hb].
Qed.

Lemma rename_ends ps s : sig_complete (rename_sig ps s) = sig_complete s.
Proof.
  induction s as [c| |d al r IH|d rs IH] using sig_ind'; cbn; auto. induction IH as [|r rs Hr _ IHr]; [reflexivity|]. cbn. rewrite Hr, IHr. reflexivity.
Qed.

Ltac one_sig Hc E := eapply sreplace_ends; [|exact Hc|exact E]; clear; intros [c| |x al r|x rs] o' Ho Eo; cbn [sig_complete] in Ho; try discriminate.

Lemma view_ends v t s s' : signature t = Some s -> view_swf v t = true -> sig_complete s = true -> view_sig v s = Some s' -> sig_complete s' = true.
Proof.
  intros Es Hw Hc E. unfold view_swf in Hw. rewrite Es in Hw. destruct v; cbn [view_sig] in E.
  - inv E. exact Hc.
  - one_sig Hc E; [inv Eo; exact Ho|]. destruct (vstatic i); [|discriminate]. rewrite forallb_forall in Ho. apply Ho. eapply nthz_In; eauto.
  - one_sig Hc E. inv Eo. exact Ho.
  - one_sig Hc E; [inv Eo; exact Ho|]. destruct (vstatic _); [|discriminate]. destruct (pick_sigs _ _ _) as [ss|] eqn:Ep; [|discriminate]. inv Eo. exact (pick_ends _ _ _ _ Ho Ep).
  - one_sig Hc E; [inv Eo; exact Ho|]. destruct (vstatic _); [|discriminate]. destruct (vstatic _); [|discriminate]. destruct (pick_sigs _ _ _) as [ss|] eqn:Ep; [|discriminate]. inv Eo. exact (pick_ends _ _ _ _ Ho Ep).
  - one_sig Hc E; [inv Eo; exact Ho|]. destruct (vstatic _); [|discriminate]. destruct (vstatic _); [|discriminate]. destruct (pick_sigs _ _ _) as [ss|] eqn:Ep; [|discriminate]. inv Eo. exact (pick_ends _ _ _ _ Ho Ep).
  - one_sig Hc E; [inv Eo; exact Ho|]. destruct (vstatic _); [|discriminate]. destruct (vstatic _); [|discriminate]. destruct (_ =? 0); [discriminate|].
    destruct (pick_sigs _ _ _) as [ss|] eqn:Ep; [|discriminate]. inv Eo. exact (pick_ends _ _ _ _ Ho Ep).
  - one_sig Hc E; inv Eo; cbn [sig_complete]; auto. apply forallb_forall. intros y Hy. rewrite forallb_forall in Ho. apply Ho, in_rev, Hy.
  - destruct (_ || _); [discriminate|]. one_sig Hc E. inv Eo. exact Ho.
  - destruct (_ || _); [discriminate|]. one_sig Hc E. inv Eo. exact Ho.
  - destruct (_ || _); [discriminate|]. one_sig Hc E. destruct (arglen_divmod _ _) as [[? ?]|]; [|discriminate]. inv Eo. cbn. rewrite Ho. reflexivity.
  - destruct (_ || _); [discriminate|]. one_sig Hc E. eapply sreplace_ends; [|exact Ho|exact Eo]. clear. intros [c| |y al' r'|y rs] o1 Ho Eo; try discriminate. destruct (x =? y); [discriminate|]. inv Eo. exact Ho.
  - clear Hw. destruct (_ && _); [|discriminate]. eapply sreplace_ends; [|exact Hc|exact E]. intros o o'. apply zc_ends.
  - cbn [view_sig] in Hw. rewrite E in Hw. exact Hw.
  - destruct (sig_find_dim d [] s) as [[| |x al r|]|]; try discriminate. destruct (sreplace _ _ _) as [s1|] eqn:E1; [|discriminate]. inv E. cbn [sig_complete].
    one_sig Hc E1. inv Eo. exact Ho.
  - clear Hw. destruct (_ && _); [|discriminate]. inv E. rewrite rename_ends. exact Hc.
  - discriminate.
Qed.

Lemma union2_ends s1 s2 : forall s, sig_complete s1 = true -> sig_union2 s1 s2 = Some s -> sig_complete s = true.
Proof.
  induction s2 as [c| |d al r IH|d rs IH] using sig_ind'; cbn [sig_union2]; intros s Hc E; try (inv E; exact Hc; fail).
  destruct (sig_union2 s1 r) as [r'|]; [|discriminate]. inv E. destruct (any_accept d s1); cbn [sig_complete]; auto.
Qed.

Lemma uswf_ends s : forall sg, uswf s = true -> signature s = Some sg -> sig_complete sg = true.
Proof.
  induction s as [c|d ts IH|d t IH|v t IH|ts IH] using struct_ind'; intros sg Hw Es.
  - inv Es. reflexivity.
  - destruct (signature_Tuple_inv _ _ _ Es) as (ss & F & _ & ->). cbn [uswf] in Hw. apply andb_prop in Hw. destruct Hw as [_ Hw]. cbn [sig_complete].
    clear Es. induction F as [|t s ts ss Hts _ IHF]; [reflexivity|]. cbn [forallb] in *. apply andb_prop in Hw. inversion IH; subst. rewrite (H1 s (proj1 Hw) Hts). apply IHF; tauto.
  - destruct (signature_Vector_inv _ _ _ Es) as (s0 & E0 & _ & ->). cbn [sig_complete]. apply IH; auto.
  - destruct (uswf_view _ _ Hw) as [Hv Ht]. destruct (signature_View_inv _ _ _ Es) as (s0 & E0 & Ev). exact (view_ends v t s0 sg E0 Hv (IH s0 Ht E0) Ev).
  - destruct (signature_Union_inv _ _ Es) as (s0 & ss & F & Eu). cbn [uswf] in Hw. apply andb_prop in Hw. destruct Hw as [Hw _].
    inversion F as [|t0 ? ts0 ? H0 _]; subst. inversion IH as [|? ? I0 _]; subst. cbn [forallb] in Hw. apply andb_prop in Hw. specialize (I0 s0 (proj1 Hw) H0).
    clear - Eu I0. revert s0 Eu I0. induction ss as [|x ss IHs]; cbn [sig_union]; intros s0 Eu I0; [inv Eu; exact I0|].
    destruct (sig_union2 s0 x) as [s1|] eqn:E1; [|discriminate]. apply (IHs s1 Eu). exact (union2_ends _ _ _ I0 E1).
Qed.

(** ** Hoisting and reordering dimensions that are not of tuples *)

Lemma sreplace_plain ds s : forall s', plain s = true -> sreplace ds (fun o => match o with SFun _ _ r => Some r | _ => None end) s = Some s' -> plain s' = true.
Proof.
  induction s as [c| |d al r IH|d rs IH] using sig_ind'; intros s' Hp E; cbn [sreplace] in E; try (inv E; reflexivity); [|discriminate Hp].
  rewrite plain_fun in Hp. destruct (mem d ds); [inv E; exact Hp|]. destruct (sreplace ds _ r) as [r'|]; [|discriminate]. inv E. rewrite plain_fun. apply IH; auto.
Qed.

Lemma find_plain q st s o : plain s = true -> sig_find_dim q st s = Some o -> plain o = true.
Proof.
  induction s as [c| |d al r IH|d rs IH] using sig_ind'; intros Hp E; cbn [sig_find_dim] in E; try discriminate.
  rewrite plain_fun in Hp. destruct (_ =? _); [inv E; exact Hp|auto].
Qed.

Lemma scalar_plain s st : forall s', plain s = true -> reassemble_scalar s st = Some s' -> plain s' = true.
Proof.
  induction s as [c| |d al r IH|d rs IH] using sig_ind'; intros s' Hp E; cbn [reassemble_scalar] in E; try (inv E; reflexivity); [|discriminate Hp].
  destruct (has _ _); [apply IH; auto|inv E; reflexivity].
Qed.

Lemma build_plain top : plain top = true -> forall ds st s', reassemble_build top st ds = Some s' -> plain s' = true.
Proof.
  intros Hp. induction ds as [|d ds IH]; intros st s' E; cbn [reassemble_build] in E; [eapply scalar_plain; eauto|]. destruct (mem d ds); [discriminate|].
  destruct (sig_find_dim d st top) as [[c| |x al r|x rs]|] eqn:Ef; try discriminate; [|pose proof (find_plain _ _ _ _ Hp Ef); discriminate].
  destruct (reassemble_build top _ ds) as [s0|] eqn:Eb; [|discriminate]. inv E. rewrite plain_fun. eapply IH; eauto.
Qed.
