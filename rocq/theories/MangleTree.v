(** * The text of structures: unique reading *)

From Verif Require Export SpecMangleStruct MangleFacts.

(** ** Texts with brackets can be read in one way only *)

Inductive tree := Atom (x : text) | Quote (d : Z) | Node (n : text) (ts : list tree).

Lemma tree_ind' (P : tree -> Prop) (HA : forall x, P (Atom x)) (HQ : forall d, P (Quote d)) (HN : forall n ts, Forall P ts -> P (Node n ts)) : forall t, P t.
Proof. fix IH 1. intros [x|d|n ts]; [apply HA|apply HQ|]. apply HN. induction ts as [|t ts IHts]; constructor; [apply IH|exact IHts]. Qed.

(** Not one of [< > , ' { }]. *)
Definition plainb (c : Z) : bool := negb (existsb (Z.eqb c) [60; 62; 44; 39; 123; 125]).
Definition plain_text (x : text) : Prop := x <> [] /\ forallb plainb x = true.

Fixpoint print (t : tree) : text :=
  match t with
  | Atom x => x
  | Quote d => [39; d; 39]
  | Node n ts => n ++ [60] ++ match ts with [] => [] | u :: us => print u ++ flat_map (fun w => 44 :: print w) us end ++ [62]
  end.

Fixpoint twf (t : tree) : Prop :=
  match t with
  | Atom x => plain_text x
  | Quote _ => True
  | Node n ts => plain_text n /\ ts <> [] /\ fold_right (fun u P => twf u /\ P) True ts
  end.

Lemma twf_all ts : fold_right (fun u P => twf u /\ P) True ts <-> Forall twf ts.
Proof. induction ts as [|t ts IH]; simpl; [split; constructor|]. rewrite IH. split; [intros [A B]; constructor; auto|intros H; inversion H; auto]. Qed.

Definition stops (r : text) : Prop := match r with [] => True | c :: _ => plainb c = false /\ c <> 60 end.
Definition breaks (r : text) : Prop := match r with [] => True | c :: _ => plainb c = false end.

Lemma split_plain x : forall y a b, forallb plainb x = true -> forallb plainb y = true -> breaks a -> breaks b -> x ++ a = y ++ b -> x = y /\ a = b.
Proof.
  induction x as [|c x IH]; intros [|c' y] a b Hx Hy Ha Hb E; cbn [app forallb] in *.
  - auto.
  - apply andb_true_iff in Hy as [Hc _]. destruct a; [discriminate|]. injection E as -> _. cbn [breaks] in Ha. congruence.
  - apply andb_true_iff in Hx as [Hc _]. destruct b; [discriminate|]. injection E as <- _. cbn [breaks] in Hb. congruence.
  - apply andb_true_iff in Hx as [_ Hx]. apply andb_true_iff in Hy as [_ Hy]. injection E as <- E. destruct (IH _ _ _ Hx Hy Ha Hb E) as [<- <-]. auto.
Qed.

Lemma stops_breaks r : stops r -> breaks r. Proof. destruct r; [auto|]. intros [H _]. exact H. Qed.

Lemma print_inj t1 : forall t2 r1 r2, twf t1 -> twf t2 -> stops r1 -> stops r2 -> print t1 ++ r1 = print t2 ++ r2 -> t1 = t2 /\ r1 = r2.
Proof.
  assert (HAQ : forall x d r1 r2, plain_text x -> x ++ r1 = [39; d; 39] ++ r2 -> False).
  { intros [|c x] d r1 r2 [H1 H2] E; [contradiction|]. cbn in E, H2. injection E as -> _. discriminate. }
  assert (HAN : forall x n r1 r2, plain_text x -> plain_text n -> stops r1 -> x ++ r1 = n ++ 60 :: r2 -> False).
  { intros x n r1 r2 [_ Hx] [_ Hn] Hs E. destruct (split_plain x n r1 (60 :: r2) Hx Hn (stops_breaks _ Hs) eq_refl E) as [_ ->]. destruct Hs as [_ Hs]. contradiction. }
  induction t1 as [x|d|n ts IH] using tree_ind'; intros [y|e|m us] r1 r2 W1 W2 S1 S2 E; cbn [print twf] in *.
  - destruct (split_plain x y r1 r2 (proj2 W1) (proj2 W2) (stops_breaks _ S1) (stops_breaks _ S2) E) as [<- <-]. auto.
  - destruct (HAQ _ _ _ _ W1 E).
  - exfalso. rewrite <- !app_assoc in E. eapply (HAN x m); [exact W1|exact (proj1 W2)|exact S1|exact E].
  - destruct (HAQ _ _ _ _ W2 (eq_sym E)).
  - injection E as <- E. auto.
  - exfalso. rewrite <- !app_assoc in E. symmetry in E. eapply (HAQ m); [exact (proj1 W2)|exact E].
  - exfalso. rewrite <- !app_assoc in E. symmetry in E. eapply (HAN y n); [exact W2|exact (proj1 W1)|exact S2|exact E].
  - exfalso. rewrite <- !app_assoc in E. eapply (HAQ n); [exact (proj1 W1)|exact E].
  - destruct W1 as (Wn & Wt & Wts), W2 as (Wm & Wu & Wus). rewrite <- !app_assoc in E. cbn [app] in E.
    destruct (split_plain n m _ _ (proj2 Wn) (proj2 Wm) (eq_refl : breaks (60 :: _)) (eq_refl : breaks (60 :: _)) E) as [<- E']. injection E' as E'.
    rewrite twf_all in Wts, Wus. destruct ts as [|t ts]; [contradiction|]. destruct us as [|u us]; [contradiction|]. clear Wt Wu E.
    assert (Hstop : forall l r, stops (flat_map (fun w => 44 :: print w) l ++ 62 :: r)) by (intros [|w l] r; cbn; split; (reflexivity || discriminate)).
    rewrite <- !app_assoc in E'. cbn [app] in E'. inversion IH as [|? ? IHt IHts]; subst. inversion Wts as [|? ? Wt Wts']; subst. inversion Wus as [|? ? Wu Wus']; subst.
    destruct (IHt u _ _ Wt Wu (Hstop _ _) (Hstop _ _) E') as [<- E]. clear E' IH IHt Wt Wu Wts Wus.
    assert (G : forall us, Forall twf us -> flat_map (fun w => 44 :: print w) ts ++ 62 :: r1 = flat_map (fun w => 44 :: print w) us ++ 62 :: r2 -> ts = us /\ r1 = r2).
    { clear E us Wus'. induction ts as [|w ts IHl]; intros [|w' us] Hu E; cbn [flat_map app] in E; try discriminate; [injection E as <-; auto|].
      injection E as E. rewrite <- !app_assoc in E. inversion Hu as [|? ? A1 A2]; subst. inversion IHts as [|? ? B1 B2]; subst. inversion Wts' as [|? ? C1 C2]; subst.
      destruct (B1 w' _ _ C1 A1 (Hstop _ _) (Hstop _ _) E) as [<- E']. destruct (IHl B2 C2 us A2 E') as [<- <-]. auto. }
    destruct (G us Wus' E) as [<- <-]. auto.
Qed.

(** Values of an expression: a structure with its members, a run-time number, a constant. *)
Inductive exp := EStruct (ty : tree) (ms : list exp) | EVal (ty : text) (x : text) | ELit (x : text).

Lemma exp_ind' (P : exp -> Prop) (HS : forall ty ms, Forall P ms -> P (EStruct ty ms)) (HV : forall ty x, P (EVal ty x)) (HL : forall x, P (ELit x)) : forall e, P e.
Proof. fix IH 1. intros [ty ms|ty x|x]; [|apply HV|apply HL]. apply HS. induction ms as [|m ms IHms]; constructor; [apply IH|exact IHms]. Qed.

Definition lit_tree (x : text) : tree := Node [108; 105; 116] [Atom x].
Fixpoint print_exp (e : exp) : text :=
  match e with
  | EStruct ty ms => print ty ++ [123] ++ flat_map (fun m => print_exp m ++ [44]) ms ++ [125]
  | EVal ty x => ty ++ [123] ++ x ++ [125]
  | ELit x => print (lit_tree x)
  end.
Fixpoint ewf (e : exp) : Prop :=
  match e with
  | EStruct ty ms => twf ty /\ (exists n ts, ty = Node n ts) /\ fold_right (fun m P => ewf m /\ P) True ms
  | EVal ty x => plain_text ty /\ plain_text x
  | ELit x => plain_text x
  end.
Lemma ewf_all ms : fold_right (fun u P => ewf u /\ P) True ms <-> Forall ewf ms.
Proof. induction ms as [|t ts IH]; simpl; [split; constructor|]. rewrite IH. split; [intros [A B]; constructor; auto|intros H; inversion H; auto]. Qed.

Definition ends (r : text) : Prop := match r with [] => True | c :: _ => c = 44 end.

Lemma print_first t : twf t -> (exists n ts, t = Node n ts) -> exists c x, print t = c :: x /\ plainb c = true.
Proof. intros W (n & ts & ->). destruct W as ([Hn Hp] & _). destruct n as [|c n]; [contradiction|]. cbn in Hp. apply andb_true_iff in Hp as [Hc _]. cbn. eauto. Qed.
Lemma exp_first e : ewf e -> exists c x, print_exp e = c :: x /\ plainb c = true.
Proof.
  destruct e as [ty ms|ty x|x]; cbn [ewf print_exp].
  - intros (W & N & _). destruct (print_first _ W N) as (c & x & -> & Hc). cbn. eauto.
  - intros [[H1 H2] _]. destruct ty as [|c ty]; [contradiction|]. cbn in H2. apply andb_true_iff in H2 as [Hc _]. cbn. eauto.
  - intros _. cbn. eauto.
Qed.

Lemma print_exp_inj e1 : forall e2 r1 r2, ewf e1 -> ewf e2 -> ends r1 -> ends r2 -> print_exp e1 ++ r1 = print_exp e2 ++ r2 -> e1 = e2 /\ r1 = r2.
Proof.
  assert (Hst : forall r, ends r -> stops r) by (intros [|c r]; [auto|intros ->; split; (reflexivity || discriminate)]).
  assert (Hop : forall r, stops (123 :: r)) by (intros r; split; (reflexivity || discriminate)).
  assert (Hlit : forall x, plain_text x -> twf (lit_tree x)) by (intros x H; cbn; repeat split; try discriminate; apply H).
  assert (Hend : forall r z, ends r -> r = 123 :: z -> False) by (intros r z H ->; discriminate).
  induction e1 as [ty ms IH|ty x|x] using exp_ind'; intros [ty' ms'|ty' x'|x'] r1 r2 W1 W2 S1 S2 E; cbn [print_exp ewf] in *; rewrite <- ?app_assoc in E; cbn [app] in E.
  - destruct W1 as (Wt & Nt & Wm), W2 as (Wt' & Nt' & Wm'). destruct (print_inj ty ty' _ _ Wt Wt' (Hop _) (Hop _) E) as [<- E']. injection E' as E'.
    rewrite ewf_all in Wm, Wm'. clear E.
    assert (G : forall ms', Forall ewf ms' -> flat_map (fun m => print_exp m ++ [44]) ms ++ 125 :: r1 = flat_map (fun m => print_exp m ++ [44]) ms' ++ 125 :: r2 -> ms = ms' /\ r1 = r2).
    { clear E' ms' Wm'. induction ms as [|m ms IHl]; intros [|m' ms'] Hm E; cbn [flat_map app] in E.
      - injection E as <-. auto.
      - exfalso. inversion Hm; subst. destruct (exp_first m' H1) as (c & z & Ez & Hc). rewrite Ez in E. injection E as <- _. discriminate.
      - exfalso. inversion Wm; subst. destruct (exp_first m H1) as (c & z & Ez & Hc). rewrite Ez in E. injection E as -> _. discriminate.
      - inversion Hm as [|? ? A1 A2]; subst. inversion Wm as [|? ? B1 B2]; subst. inversion IH as [|? ? C1 C2]; subst. rewrite <- !app_assoc in E. cbn [app] in E.
        destruct (C1 m' _ _ B1 A1 (eq_refl : ends (44 :: _)) (eq_refl : ends (44 :: _)) E) as [<- E']. injection E' as E'. destruct (IHl C2 B2 ms' A2 E') as [<- <-]. auto. }
    destruct (G ms' Wm' E') as [<- <-]. auto.
  - exfalso. destruct W1 as (Wt & (n & ts & ->) & _), W2 as (Wt' & _). destruct (print_inj (Node n ts) (Atom ty') _ _ Wt Wt' (Hop _) (Hop _) E) as [X _]. discriminate.
  - exfalso. destruct W1 as (Wt & _). destruct (print_inj ty (lit_tree x') _ r2 Wt (Hlit _ W2) (Hop _) (Hst _ S2) E) as [_ X]. exact (Hend _ _ S2 (eq_sym X)).
  - exfalso. destruct W2 as (Wt & (n & ts & ->) & _), W1 as (Wt' & _). destruct (print_inj (Atom ty) (Node n ts) _ _ Wt' Wt (Hop _) (Hop _) E) as [X _]. discriminate.
  - destruct W1 as (Wt & Wx), W2 as (Wt' & Wx'). destruct (print_inj (Atom ty) (Atom ty') _ _ Wt Wt' (Hop _) (Hop _) E) as [X E']. injection X as <-. injection E' as E'.
    destruct (split_plain x x' (125 :: r1) (125 :: r2) (proj2 Wx) (proj2 Wx') eq_refl eq_refl E') as [<- Er]. injection Er as <-. auto.
  - exfalso. destruct W1 as (Wt & _). destruct (print_inj (Atom ty) (lit_tree x') _ r2 Wt (Hlit _ W2) (Hop _) (Hst _ S2) E) as [_ X]. exact (Hend _ _ S2 (eq_sym X)).
  - exfalso. destruct W2 as (Wt & _). destruct (print_inj (lit_tree x) ty' r1 _ (Hlit _ W1) Wt (Hst _ S1) (Hop _) E) as [_ X]. exact (Hend _ _ S1 X).
  - exfalso. destruct W2 as (Wt & _). destruct (print_inj (lit_tree x) (Atom ty') r1 _ (Hlit _ W1) Wt (Hst _ S1) (Hop _) E) as [_ X]. exact (Hend _ _ S1 X).
  - destruct (print_inj (lit_tree x) (lit_tree x') r1 r2 (Hlit _ W1) (Hlit _ W2) (Hst _ S1) (Hst _ S2)) as [X <-]; [exact E|]. injection X as <-. auto.
Qed.
