(** * Facts about values and states *)

From Verif Require Export Lib.

Lemma tag_eqb_spec a b : reflect (a = b) (tag_eqb a b).
Proof.
  destruct a as [x|x|x], b as [y|y|y]; simpl; try (constructor; discriminate);
    destruct (Z.eqb_spec x y); constructor; congruence.
Qed.

Lemma tag_eqb_refl t : tag_eqb t t = true.
Proof. destruct (tag_eqb_spec t t); congruence. Qed.

Lemma tag_eqb_sym a b : tag_eqb a b = tag_eqb b a.
Proof. destruct (tag_eqb_spec a b), (tag_eqb_spec b a); congruence. Qed.

Lemma tag_mem_In t ts : tag_mem t ts = true <-> In t ts.
Proof.
  unfold tag_mem. rewrite existsb_exists. split.
  - intros (x & Hx & E). destruct (tag_eqb_spec t x); congruence.
  - intros H. exists t. split; [exact H|apply tag_eqb_refl].
Qed.

Lemma tag_mem_false t ts : tag_mem t ts = false <-> ~ In t ts.
Proof. rewrite <- tag_mem_In. destruct (tag_mem t ts); split; congruence. Qed.

(** Extensional equality of states: the only way a state can be observed. *)
Definition steq (a b : state) : Prop := forall t, get t a = get t b.
Infix "≡" := steq (at level 70).

Lemma steq_refl a : a ≡ a. Proof. intros t; reflexivity. Qed.
Lemma steq_sym a b : a ≡ b -> b ≡ a. Proof. intros H t; symmetry; apply H. Qed.
Lemma steq_trans a b c : a ≡ b -> b ≡ c -> a ≡ c. Proof. intros H1 H2 t. rewrite H1. apply H2. Qed.
Global Instance steq_equiv : RelationClasses.Equivalence steq.
Proof. split; [exact steq_refl|exact steq_sym|exact steq_trans]. Qed.

Lemma get_app t a b : get t (a ++ b) = match get t a with Some v => Some v | None => get t b end.
Proof.
  induction a as [|[t' v] a IH]; simpl; [reflexivity|].
  destruct (tag_eqb t t'); [reflexivity|apply IH].
Qed.

Lemma get_None t st : get t st = None <-> ~ In t (map fst st).
Proof.
  induction st as [|[t' v] st IH]; simpl; [tauto|].
  destruct (tag_eqb_spec t t') as [->|Hne]; [split; [discriminate|tauto]|].
  rewrite IH. firstorder congruence.
Qed.

Lemma get_Some_In t v st : get t st = Some v -> In (t, v) st.
Proof.
  induction st as [|[t' v'] st IH]; simpl; [discriminate|].
  destruct (tag_eqb_spec t t') as [->|Hne]; [intros E; inv E; auto|auto].
Qed.

Lemma get_In_fst t v st : get t st = Some v -> In t (map fst st).
Proof. intros H. apply get_Some_In in H. apply (in_map fst) in H. exact H. Qed.

Lemma In_get_nodup t v st : NoDup (map fst st) -> In (t, v) st -> get t st = Some v.
Proof.
  induction st as [|[t' v'] st IH]; simpl; [intros _ []|].
  intros Hnd Hin. inv Hnd. destruct Hin as [E|Hin].
  - inv E. rewrite tag_eqb_refl. reflexivity.
  - destruct (tag_eqb_spec t t') as [->|_]; [|auto].
    exfalso. apply H1. apply (in_map fst) in Hin. exact Hin.
Qed.

Lemma get_remove t ts st : get t (remove ts st) = if tag_mem t ts then None else get t st.
Proof.
  induction st as [|[t' v] st IH]; simpl; [destruct (tag_mem t ts); reflexivity|].
  destruct (tag_mem t' ts) eqn:Em; simpl.
  - rewrite IH. destruct (tag_eqb_spec t t') as [->|]; [rewrite Em|]; reflexivity.
  - destruct (tag_eqb_spec t t') as [->|]; [rewrite Em; reflexivity|exact IH].
Qed.

Lemma get_filter_tags t ts st : get t (filter_tags ts st) = if tag_mem t ts then get t st else None.
Proof.
  induction st as [|[t' v] st IH]; simpl; [destruct (tag_mem t ts); reflexivity|].
  destruct (tag_mem t' ts) eqn:Em; simpl.
  - destruct (tag_eqb_spec t t') as [->|]; [rewrite Em; reflexivity|exact IH].
  - rewrite IH. destruct (tag_eqb_spec t t') as [->|]; [rewrite Em|]; reflexivity.
Qed.

Lemma get_with t items st :
  get t (with_ items st) = match get t items with Some v => Some v | None => get t st end.
Proof.
  unfold with_. rewrite get_app, get_remove.
  destruct (get t items) as [v|] eqn:Ei.
  - replace (tag_mem t (map fst items)) with true; [reflexivity|].
    symmetry. apply tag_mem_In. eapply get_In_fst, Ei.
  - replace (tag_mem t (map fst items)) with false; [destruct (get t st); reflexivity|].
    symmetry. apply tag_mem_false, get_None, Ei.
Qed.

Lemma has_remove t ts st : has t (remove ts st) = negb (tag_mem t ts) && has t st.
Proof. unfold has. rewrite get_remove. destruct (tag_mem t ts); reflexivity. Qed.

Lemma has_with t items st :
  has t (with_ items st) = has t items || has t st.
Proof. unfold has. rewrite get_with. destruct (get t items); reflexivity. Qed.

Lemma has_true t st : has t st = true <-> exists v, get t st = Some v.
Proof. unfold has. destruct (get t st); split; eauto; try discriminate. intros (v & E); discriminate. Qed.

Lemma has_false t st : has t st = false <-> get t st = None.
Proof. unfold has. destruct (get t st); split; congruence. Qed.

Lemma has_In t st : has t st = true <-> In t (map fst st).
Proof.
  unfold has. destruct (get t st) eqn:E.
  - split; [intros _; eapply get_In_fst, E|reflexivity].
  - split; [discriminate|]. intros H. apply get_None in E. contradiction.
Qed.

Lemma get_dedup t b :
  get t (flat_map (fun p => match get (fst p) b with Some v => [(fst p, v)] | None => [] end) b) = get t b.
Proof.
  assert (Hgen : forall l, (forall x, In x l -> In x b) ->
            get t (flat_map (fun p => match get (fst p) b with Some v => [(fst p, v)] | None => [] end) l)
            = if tag_mem t (map fst l) then get t b else None).
  { induction l as [|[t' v] l IH]; intros Hl; [reflexivity|].
    simpl flat_map. assert (Hin : In (t', v) b) by (apply Hl; left; reflexivity).
    destruct (get t' b) as [v'|] eqn:Eg.
    - simpl. destruct (tag_eqb_spec t t') as [->|Hne]; simpl; [congruence|].
      apply IH. intros x Hx. apply Hl. right; exact Hx.
    - exfalso. apply get_None in Eg. apply Eg. apply (in_map fst) in Hin. exact Hin. }
  rewrite Hgen by auto. destruct (tag_mem t (map fst b)) eqn:Em; [reflexivity|].
  symmetry. apply get_None, tag_mem_false, Em.
Qed.

Lemma get_st_and t a b :
  get t (st_and a b) = match get t b with Some v => Some v | None => get t a end.
Proof. unfold st_and. rewrite get_with, get_dedup. reflexivity. Qed.

(** ** Numbers *)

Lemma vz_range v z : vz v = Some z -> 0 <= z < W.
Proof. destruct v; simpl; intros E; inv E; apply u64_range. Qed.

Lemma is_sta_vz n v : is_sta n v = true -> vz v = Some n.
Proof. destruct v; simpl; try discriminate. intros H. apply Z.eqb_eq in H. congruence. Qed.

Ltac vcase a b :=
  destruct a as [xa|xa|]; destruct b as [xb|xb|].

Lemma vz_vadd a b :
  vz (vadd a b) = match vz a, vz b with Some x, Some y => Some (u64 (x + y)) | _, _ => None end.
Proof.
  vcase a b; unfold vadd, is_sta, dyn2; simpl vz;
    rewrite ?u64_u64, ?u64_add_l, ?u64_add_r; auto.
  all: repeat (match goal with |- context [u64 ?z =? 0] => destruct (Z.eqb_spec (u64 z) 0) as [E|E] end);
    simpl vz; rewrite ?u64_u64; auto.
  - rewrite <- u64_add_l, E. f_equal.
  - rewrite <- u64_add_r, E. f_equal. f_equal. lia.
Qed.

Lemma vz_vsub a b :
  vz (vsub a b) = match vz a, vz b with Some x, Some y => Some (u64 (x - y)) | _, _ => None end.
Proof.
  vcase a b; unfold vsub, is_sta, dyn2; simpl vz;
    rewrite ?u64_u64, ?u64_sub_l, ?u64_sub_r; auto.
  all: repeat (match goal with |- context [u64 ?z =? 0] => destruct (Z.eqb_spec (u64 z) 0) as [E|E] end);
    simpl vz; rewrite ?u64_u64, ?u64_sub_l, ?u64_sub_r; auto.
  - rewrite <- (u64_sub_l xa xb), E, <- (u64_sub_r 0 xb). reflexivity.
  - rewrite <- (u64_sub_r xa xb), E. f_equal. f_equal. lia.
Qed.

(** Multiplication: an undefined factor is dropped by the static-zero shortcut. *)
Lemma vz_vmul a b x y :
  vz a = Some x -> vz b = Some y -> vz (vmul a b) = Some (u64 (x * y)).
Proof.
  intros Ha Hb. vcase a b; simpl in Ha, Hb; inv Ha; inv Hb; unfold vmul, is_sta, dyn2; simpl vz;
    rewrite ?u64_u64, ?u64_mul_l, ?u64_mul_r; auto.
  all: repeat (match goal with |- context [u64 ?z =? 0] => destruct (Z.eqb_spec (u64 z) 0) as [E|E] end);
    simpl vz; rewrite ?u64_u64, ?u64_mul_l, ?u64_mul_r; auto.
  - rewrite <- (u64_mul_l xa xb), E. reflexivity.
  - rewrite <- (u64_mul_r xa xb), E, Z.mul_0_r. reflexivity.
Qed.

Lemma u64_div x y : 0 <= x < W -> 0 <= y < W -> u64 (x / y) = x / y.
Proof.
  intros Hx Hy. apply u64_small.
  destruct (Z.eq_dec y 0) as [->|Hy0]; [rewrite Zdiv_0_r; pose proof W_pos; lia|].
  split; [apply Z.div_pos; lia|].
  apply Z.le_lt_trans with x; [|lia]. apply Z.div_le_upper_bound; nia.
Qed.

Lemma u64_mod x y : 0 <= x < W -> 0 < y < W -> u64 (x mod y) = x mod y.
Proof.
  intros Hx Hy. apply u64_small. pose proof (Z.mod_pos_bound x y). lia.
Qed.

Lemma vz_vdiv a b x y :
  vz a = Some x -> vz b = Some y -> y <> 0 -> vz (vdiv a b) = Some (x / y).
Proof.
  intros Ha Hb Hy. pose proof (vz_range _ _ Ha) as Rx. pose proof (vz_range _ _ Hb) as Ry.
  assert (Hd : dyn2nz Z.div a b = Dyn (x / y)).
  { unfold dyn2nz. rewrite Ha, Hb. destruct (Z.eqb_spec y 0); [contradiction|].
    rewrite u64_div by auto. reflexivity. }
  assert (H0 : is_sta 0 a = true -> x / y = 0).
  { intros H. apply is_sta_vz in H. rewrite H in Ha. inv Ha. apply Zdiv_0_l. }
  vcase a b; simpl in Ha, Hb; inv Ha; inv Hb; unfold vdiv; simpl is_sta in *;
    repeat (match goal with |- context [u64 ?z =? 0] => destruct (Z.eqb_spec (u64 z) 0) as [E|E] end);
    try contradiction; rewrite ?Hd; simpl vz; rewrite ?u64_u64, ?u64_div by auto using u64_range; auto.
  all: try (rewrite H0; [reflexivity|]; reflexivity).
Qed.

Lemma vz_vmod a b x y :
  vz a = Some x -> vz b = Some y -> y <> 0 -> vz (vmod a b) = Some (x mod y).
Proof.
  intros Ha Hb Hy. pose proof (vz_range _ _ Ha) as Rx. pose proof (vz_range _ _ Hb) as Ry.
  assert (Hd : dyn2nz Z.modulo a b = Dyn (x mod y)).
  { unfold dyn2nz. rewrite Ha, Hb. destruct (Z.eqb_spec y 0); [contradiction|].
    rewrite u64_mod by lia. reflexivity. }
  assert (H0 : is_sta 0 a = true -> x mod y = 0).
  { intros H. apply is_sta_vz in H. rewrite H in Ha. inv Ha. apply Zmod_0_l. }
  assert (Hm : u64 (x mod y) = x mod y) by (apply u64_mod; lia).
  vcase a b; simpl in Ha, Hb; inv Ha; inv Hb; unfold vmod; simpl is_sta in *;
    repeat (match goal with |- context [u64 ?z =? 0] => destruct (Z.eqb_spec (u64 z) 0) as [E|E] end);
    try contradiction; rewrite ?Hd; simpl vz; rewrite ?u64_u64, ?Hm; auto.
  all: try (rewrite H0; [reflexivity|]; reflexivity).
Qed.

Lemma vz_vneg a : vz (vneg a) = match vz a with Some x => Some (u64 (- x)) | None => None end.
Proof.
  unfold vneg, dyn2. change (vz (Dyn 0)) with (Some 0). destruct (vz a) as [x|]; [|reflexivity].
  simpl. rewrite u64_u64. f_equal.
Qed.

Lemma vz_vdyn a : vz (vdyn a) = vz a.
Proof.
  unfold vdyn. destruct (vz a) as [x|] eqn:E; [|reflexivity]. simpl.
  rewrite u64_small; [reflexivity|]. eapply vz_range, E.
Qed.

Lemma vdiv_by_zero a b x : vz a = Some x -> vz b = Some 0 ->
  vdiv a b = Undef \/ (is_sta 0 a = true /\ vdiv a b = Sta 0).
Proof.
  intros Ha Hb.
  assert (Hd : dyn2nz Z.div a b = Undef).
  { unfold dyn2nz. rewrite Ha, Hb. reflexivity. }
  unfold vdiv. vcase a b; try discriminate; rewrite ?Hd; simpl in *; injection Hb as Hb;
    repeat (match goal with |- context [u64 ?z =? 0] => destruct (Z.eqb_spec (u64 z) 0) as [E|E] end);
    auto; congruence.
Qed.
