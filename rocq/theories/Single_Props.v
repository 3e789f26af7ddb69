(** C46: the creation of a singleton. *)
From Coq Require Import Lia.
From Verif Require Import Base Single_Model.
Local Open Scope list_scope.

(** The objects created, and by whom; the objects handed out; the last event of a thread. *)
Fixpoint created (ev : list sev) : list (nat * nat) := match ev with [] => [] | ENew t o :: r => (t, o) :: created r | _ :: r => created r end.
Fixpoint handed (ev : list sev) : list (nat * option nat) := match ev with [] => [] | EGot t o :: r => (t, o) :: handed r | _ :: r => handed r end.
Definition who (e : sev) : nat := match e with ENew t _ => t | EGot t _ => t end.
Definition of_thread (t : nat) (ev : list sev) : list sev := filter (fun e => Nat.eqb (who e) t) ev.
Definition last_of (t : nat) (ev : list sev) : option sev := hd_error (rev (of_thread t ev)).

Lemma created_app : forall a b, created (a ++ b) = created a ++ created b.
Proof. induction a as [|[t o|t o] a IH]; intros b; cbn; [reflexivity|rewrite IH; reflexivity|apply IH]. Qed.
Lemma handed_app : forall a b, handed (a ++ b) = handed a ++ handed b.
Proof. induction a as [|[t o|t o] a IH]; intros b; cbn; [reflexivity|apply IH|rewrite IH; reflexivity]. Qed.
Lemma last_of_snoc : forall t ev e, last_of t (ev ++ [e]) = if Nat.eqb (who e) t then Some e else last_of t ev.
Proof. intros t ev e; unfold last_of, of_thread; rewrite filter_app; cbn; destruct (Nat.eqb (who e) t); [rewrite rev_app_distr; reflexivity|rewrite app_nil_r; reflexivity]. Qed.
Lemma upds_same : forall f t p, upds f t p t = p.
Proof. intros; unfold upds; rewrite Nat.eqb_refl; reflexivity. Qed.
Lemma upds_other : forall f t p u, u <> t -> upds f t p u = f u.
Proof. intros f t p u N; unfold upds; destruct (Nat.eqb_spec u t); [contradiction|reflexivity]. Qed.

(** On the old way: looked up the original __new__. *)
Definition old_way (p : spc) : bool := match p with Wants | Before19 | Before20 | Before21 => true | _ => false end.
Definition has_lock (p : spc) : bool := match p with Before19 | Before20 | Before21 => true | _ => false end.
Definition made (p : spc) : bool := match p with Before20 | Before21 => true | _ => false end.
(** The first thing handed to a thread after it created an object is this object. *)
Definition own (ev : list sev) : Prop := forall a b t x o, ev = a ++ EGot t x :: b -> last_of t a = Some (ENew t o) -> x = Some o.

Record sinv (s : sstate) (ev : list sev) : Prop := mkSI {
  i_lock : forall t, has_lock (spcs s t) = true -> create_lock s = Some t;
  i_rep : replaced s = true -> instance s <> None;
  i_new : forall t, spcs s t = Before18 -> replaced s = true;
  i_late : forall t, spcs s t = Before21 -> replaced s = true;
  i_made : forall t, made (spcs s t) = true -> exists o, last_of t ev = Some (ENew t o) /\ instance s = Some o;
  i_rest : forall t, made (spcs s t) = false -> forall o, last_of t ev <> Some (ENew t o);
  i_inst : forall o, instance s = Some o -> In o (map snd (created ev));
  i_fresh : forall t o, In (t, o) (created ev) -> o < fresh s;
  i_once : NoDup (map fst (created ev));
  i_objs : NoDup (map snd (created ev));
  i_who : forall t, In t (map fst (created ev)) -> replaced s = true \/ spcs s t = Before20;
  i_not : forall t, (spcs s t = Wants \/ spcs s t = Before19) -> ~ In t (map fst (created ev));
  i_got : forall t x, In (t, x) (handed ev) -> exists o, x = Some o /\ In o (map snd (created ev));
  i_own : own ev
}.

Lemma NoDup_snoc : forall B (l : list B) x, NoDup l -> ~ In x l -> NoDup (l ++ [x]).
Proof. intros B l x N I; apply NoDup_rev in N; rewrite <- (rev_involutive (l ++ [x])), rev_app_distr; apply NoDup_rev; cbn; constructor; [rewrite <- in_rev; exact I|exact N]. Qed.
Lemma snoc_split : forall (ev a b : list sev) e f, ev ++ [e] = a ++ f :: b -> (a = ev /\ f = e /\ b = []) \/ exists b', b = b' ++ [e] /\ ev = a ++ f :: b'.
Proof.
  intros ev a b e f E. destruct b as [|y b] using rev_ind.
  - apply app_inj_tail in E; destruct E as [-> ->]; left; auto.
  - change (ev ++ [e] = a ++ (f :: b) ++ [y]) in E. rewrite app_assoc in E. apply app_inj_tail in E; destruct E as [-> ->]; right; exists b; auto.
Qed.
Lemma own_snoc : forall ev e, own ev -> (forall t x o, e = EGot t x -> last_of t ev = Some (ENew t o) -> x = Some o) -> own (ev ++ [e]).
Proof.
  intros ev e O H a b t x o E L. apply snoc_split in E. destruct E as [(-> & F & _)|(b' & _ & E)].
  - apply (H t); [symmetry; exact F|exact L].
  - apply (O _ _ _ _ _ E L).
Qed.
Lemma sinv_start : sinv sstart [].
Proof. constructor; cbn; try (intros; discriminate); try (intros; contradiction); try constructor. 
  - intros t [|]; discriminate.
  - intros a b t x o E; destruct a; discriminate.
Qed.

Ltac at_thread t u :=
  let N := fresh "N" in destruct (Nat.eq_dec u t) as [->|N]; [rewrite ?upds_same in *|rewrite ?upds_other in * by exact N].
Lemma sinv_step : forall s ev t s' e, sinv s ev -> sstep s t = Some (s', e) -> sinv s' (ev ++ e).
Proof.
  intros s ev t s' e I E. unfold sstep in E. destruct (spcs s t) eqn:P.
  - injection E as <- <-. rewrite app_nil_r. destruct I; constructor; cbn; auto.
    + intros u; at_thread t u; [destruct (replaced s); discriminate|apply i_lock0].
    + intros u; at_thread t u; [destruct (replaced s); [reflexivity|discriminate]|apply i_new0].
    + intros u; at_thread t u; [destruct (replaced s); discriminate|apply i_late0].
    + intros u; at_thread t u; [destruct (replaced s); discriminate|apply i_made0].
    + intros u; at_thread t u; [intros _; apply i_rest0; rewrite P; reflexivity|apply i_rest0].
    + intros u Q; destruct (i_who0 u Q) as [R|R]; [left; exact R|right]. at_thread t u; [congruence|exact R].
    + intros u; at_thread t u; [|apply i_not0]. intros W Q. destruct (i_who0 t Q) as [R|R]; [|congruence].
      rewrite R in W; destruct W as [W|W]; discriminate.
  - destruct (create_lock s) as [h|] eqn:L; [discriminate|]. injection E as <- <-. rewrite app_nil_r. destruct I; constructor; cbn; auto.
    + intros u; at_thread t u; [reflexivity|]. intros H; specialize (i_lock0 u H); congruence.
    + intros u; at_thread t u; [discriminate|apply i_new0].
    + intros u; at_thread t u; [discriminate|apply i_late0].
    + intros u; at_thread t u; [discriminate|apply i_made0].
    + intros u; at_thread t u; [intros _; apply i_rest0; rewrite P; reflexivity|apply i_rest0].
    + intros u Q; destruct (i_who0 u Q) as [R|R]; [left; exact R|right]. at_thread t u; [congruence|exact R].
    + intros u; at_thread t u; [|apply i_not0]. intros _; apply i_not0; left; exact P.
  - injection E as <- <-. destruct I.
    assert (NF : ~ In (fresh s) (map snd (created ev))) by (intros H; apply in_map_iff in H; destruct H as ((x & y) & Hy & H); cbn in Hy; subst y; apply i_fresh0 in H; lia).
    assert (LK : create_lock s = Some t) by (apply i_lock0; rewrite P; reflexivity).
    assert (C : created (ev ++ [ENew t (fresh s)]) = created ev ++ [(t, fresh s)]) by (rewrite created_app; reflexivity).
    assert (NL : forall u, has_lock (spcs s u) = true -> u = t) by (intros u H; apply i_lock0 in H; congruence).
    constructor; cbn [instance replaced create_lock fresh spcs]; rewrite ?C, ?map_app.
    + intros u; at_thread t u; [intros _; exact LK|apply i_lock0].
    + discriminate.
    + intros u; at_thread t u; [discriminate|apply i_new0].
    + intros u; at_thread t u; [discriminate|apply i_late0].
    + intros u H. rewrite last_of_snoc; cbn [who]. at_thread t u.
      * rewrite Nat.eqb_refl; exists (fresh s); split; reflexivity.
      * exfalso; apply N, NL; destruct (spcs s u); try discriminate; reflexivity.
    + intros u H o. rewrite last_of_snoc; cbn [who]. at_thread t u; [discriminate|].
      destruct (Nat.eqb_spec t u); [congruence|]. apply i_rest0; exact H.
    + intros o H; injection H as <-; apply in_or_app; right; left; reflexivity.
    + intros u o H; apply in_app_or in H; destruct H as [H|[H|[]]]; [apply i_fresh0 in H; lia|injection H as <- <-; lia].
    + apply NoDup_snoc; [exact i_once0|]. apply i_not0; right; exact P.
    + apply NoDup_snoc; [exact i_objs0|exact NF].
    + intros u H; apply in_app_or in H. at_thread t u; [right; reflexivity|].
      destruct H as [H|[H|[]]]; [apply i_who0; exact H|cbn in H; congruence].
    + intros u; at_thread t u; [intros [|]; discriminate|]. intros W H; apply in_app_or in H.
      destruct H as [H|[H|[]]]; [exact (i_not0 u W H)|cbn in H; congruence].
    + intros u x H. rewrite handed_app in H; cbn in H; rewrite app_nil_r in H. destruct (i_got0 u x H) as (o & -> & Io); exists o; split; [reflexivity|apply in_or_app; left; exact Io].
    + apply own_snoc; [exact i_own0|intros; discriminate].
  - injection E as <- <-. rewrite app_nil_r. destruct I; constructor; cbn; auto.
    + intros u; at_thread t u; [intros _; apply i_lock0; rewrite P; reflexivity|apply i_lock0].
    + intros _ H. assert (M : made (spcs s t) = true) by (rewrite P; reflexivity). destruct (i_made0 t M) as (o & _ & Io); congruence.
    + intros u; at_thread t u; [intros _; apply i_made0; rewrite P; reflexivity|apply i_made0].
    + intros u; at_thread t u; [discriminate|apply i_rest0].
    + intros u; at_thread t u; [intros [|]; discriminate|apply i_not0].
  - injection E as <- <-. destruct I.
    assert (M : made (spcs s t) = true) by (rewrite P; reflexivity).
    assert (R : replaced s = true) by (apply (i_late0 t); exact P).
    assert (LK : create_lock s = Some t) by (apply i_lock0; rewrite P; reflexivity).
    assert (NL : forall u, has_lock (spcs s u) = true -> u = t) by (intros u H; apply i_lock0 in H; congruence).
    assert (C : created (ev ++ [EGot t (instance s)]) = created ev) by (rewrite created_app; cbn; apply app_nil_r).
    destruct (i_made0 t M) as (o & Lo & Io).
    constructor; cbn [instance replaced create_lock fresh spcs]; rewrite ?C; auto.
    + intros u; at_thread t u; [discriminate|]. intros H; elim N; apply NL; exact H.
    + intros u H; at_thread t u; [discriminate|]. elim N; apply NL; destruct (spcs s u); try discriminate; reflexivity.
    + intros u H x. rewrite last_of_snoc; cbn [who]. destruct (Nat.eqb_spec t u) as [->|Nu]; [discriminate|].
      at_thread t u; [congruence|]. apply i_rest0; exact H.
    + intros u; at_thread t u; [intros [|]; discriminate|apply i_not0].
    + intros u x H. rewrite handed_app in H; apply in_app_or in H; destruct H as [H|[H|[]]]; [apply (i_got0 u x H)|].
      injection H as <- <-. exists o; split; [exact Io|apply i_inst0; exact Io].
    + apply own_snoc; [exact i_own0|]. intros u x o' F L. injection F as <- <-. congruence.
  - injection E as <- <-. destruct I.
    assert (M : made (spcs s t) = false) by (rewrite P; reflexivity).
    assert (R : replaced s = true) by (apply (i_new0 t); exact P).
    assert (C : created (ev ++ [EGot t (instance s)]) = created ev) by (rewrite created_app; cbn; apply app_nil_r).
    constructor; cbn [sgo instance replaced create_lock fresh spcs]; rewrite ?C; auto.
    + intros u; at_thread t u; [discriminate|apply i_lock0].
    + intros u H. at_thread t u; [discriminate|]. destruct (i_made0 u H) as (o & Lo & Io). exists o; split; [|exact Io].
      rewrite last_of_snoc; cbn [who]. destruct (Nat.eqb_spec t u); [congruence|exact Lo].
    + intros u H x. rewrite last_of_snoc; cbn [who]. destruct (Nat.eqb_spec t u) as [->|Nu]; [discriminate|].
      at_thread t u; [congruence|]. apply i_rest0; exact H.
    + intros u; at_thread t u; [intros [|]; discriminate|apply i_not0].
    + intros u x H. rewrite handed_app in H; apply in_app_or in H; destruct H as [H|[H|[]]]; [apply (i_got0 u x H)|].
      injection H as <- <-. destruct (instance s) as [o|] eqn:Io; [|elim (i_rep0 R); reflexivity].
      exists o; split; [reflexivity|apply i_inst0; reflexivity].
    + apply own_snoc; [exact i_own0|]. intros u x o' F L. injection F as <- <-. elim (i_rest0 t M o' L).
Qed.
Lemma sinv_run : forall l s ev s' e, sinv s ev -> srun s l = Some (s', e) -> sinv s' (ev ++ e).
Proof.
  induction l as [|t l IH]; intros s ev s' e I E; cbn [srun] in E.
  - injection E as <- <-; rewrite app_nil_r; exact I.
  - destruct (sstep s t) as [[s1 e1]|] eqn:E1; [|discriminate]. destruct (srun s1 l) as [[s2 e2]|] eqn:E2; [|discriminate].
    injection E as <- <-. rewrite app_assoc. apply (IH s1); [apply (sinv_step s ev t); assumption|exact E2].
Qed.

(** Whatever the schedule: nothing but a created instance is ever handed out, all created instances differ, and no thread creates
    more than one. *)
Theorem C46_created : forall l s ev, srun sstart l = Some (s, ev) ->
  NoDup (map fst (created ev)) /\ NoDup (map snd (created ev)) /\
  (forall t x, In (t, x) (handed ev) -> exists o, x = Some o /\ In o (map snd (created ev))).
Proof. intros l s ev E; pose proof (sinv_run l _ [] _ _ sinv_start E) as I; destruct I; auto. Qed.

(** Whatever the schedule: a thread that created an instance is handed this very instance. *)
Theorem C46_own : forall l s ev a b t x o, srun sstart l = Some (s, ev) ->
  ev = a ++ EGot t x :: b -> last_of t a = Some (ENew t o) -> x = Some o.
Proof. intros l s ev a b t x o E; pose proof (sinv_run l _ [] _ _ sinv_start E) as I; destruct I; apply i_own0. Qed.

(** Once an instance was handed out and nobody is left on the original way, one object is handed out for ever and nothing else is created. *)
Definition settled (s : sstate) (o : nat) : Prop := replaced s = true /\ instance s = Some o /\ forall t, old_way (spcs s t) = false.
Lemma settled_step : forall s o t s' e, settled s o -> sstep s t = Some (s', e) -> settled s' o /\ created e = [] /\ (forall u x, In (u, x) (handed e) -> x = Some o).
Proof.
  intros s o t s' e (R & I & O) E. unfold sstep in E. pose proof (O t) as Ot. destruct (spcs s t); try discriminate; injection E as <- <-; rewrite ?R.
  - split; [|split; [reflexivity|intros u x []]]. split; [exact R|split; [exact I|]]. intros u; cbn [sgo spcs]; at_thread t u; [reflexivity|apply O].
  - split; [|split; [reflexivity|]].
    + split; [exact R|split; [exact I|]]. intros u; cbn [sgo spcs]; at_thread t u; [reflexivity|apply O].
    + intros u x [H|[]]; injection H as <- <-; exact I.
Qed.
Lemma settled_run : forall l s o s' e, settled s o -> srun s l = Some (s', e) -> settled s' o /\ created e = [] /\ (forall u x, In (u, x) (handed e) -> x = Some o).
Proof.
  induction l as [|t l IH]; intros s o s' e W E; cbn [srun] in E.
  - injection E as <- <-; split; [exact W|split; [reflexivity|intros u x []]].
  - destruct (sstep s t) as [[s1 e1]|] eqn:E1; [|discriminate]. destruct (srun s1 l) as [[s2 e2]|] eqn:E2; [|discriminate]. injection E as <- <-.
    destruct (settled_step _ _ _ _ _ W E1) as (W1 & C1 & H1). destruct (IH _ _ _ _ W1 E2) as (W2 & C2 & H2).
    split; [exact W2|]. rewrite created_app, handed_app, C1, C2. split; [reflexivity|].
    intros u x H; apply in_app_or in H; destruct H as [H|H]; [apply (H1 u), H|apply (H2 u), H].
Qed.
Theorem C46_settles : forall l1 s1 e1 l2 s2 e2, srun sstart l1 = Some (s1, e1) -> handed e1 <> [] ->
  (forall t, old_way (spcs s1 t) = false) -> srun s1 l2 = Some (s2, e2) ->
  created e2 = [] /\ exists o, forall t x, In (t, x) (handed e2) -> x = Some o.
Proof.
  intros l1 s1 e1 l2 s2 e2 E1 H O E2. pose proof (sinv_run l1 _ [] _ _ sinv_start E1) as I. cbn in I.
  assert (R : replaced s1 = true).
  { destruct (handed e1) as [|[t x] r] eqn:Eh; [elim H; reflexivity|]. destruct I.
    destruct (i_got0 t x) as (o & _ & Ho); [rewrite Eh; left; reflexivity|].
    apply in_map_iff in Ho; destruct Ho as ((u & o') & _ & Ho). destruct (i_who0 u) as [R|R]; [apply in_map_iff; exists (u, o'); auto|exact R|].
    specialize (O u); rewrite R in O; discriminate. }
  destruct (instance s1) as [o|] eqn:Io; [|destruct I; elim (i_rep0 R); exact Io].
  assert (W : settled s1 o) by (split; [exact R|split; [exact Io|exact O]]).
  destruct (settled_run _ _ _ _ _ W E2) as (_ & C & G). split; [exact C|exists o; exact G].
Qed.
(** In particular: when a first request was served before any other began, every request of any thread gets the same object. *)
Theorem C46_first_alone : forall t l s ev, srun sstart (repeat t 5 ++ l) = Some (s, ev) ->
  created ev = [(t, 0)] /\ forall u x, In (u, x) (handed ev) -> x = Some 0.
Proof.
  intros t l s ev E.
  assert (S : forall l1 l2 s0 s1 e1, srun s0 l1 = Some (s1, e1) -> srun s0 (l1 ++ l2) = match srun s1 l2 with None => None | Some (s2, e2) => Some (s2, e1 ++ e2) end).
  { clear; induction l1 as [|t l1 IH]; intros l2 s0 s1 e1 E; cbn [srun app] in *.
    - injection E as <- <-. destruct (srun s0 l2) as [[? ?]|]; reflexivity.
    - destruct (sstep s0 t) as [[sa ea]|]; [|discriminate]. destruct (srun sa l1) as [[sb eb]|] eqn:Eb; [|discriminate]. injection E as <- <-.
      rewrite (IH l2 sa sb eb Eb). destruct (srun sb l2) as [[? ?]|]; [rewrite app_assoc; reflexivity|reflexivity]. }
  assert (F : exists f, srun sstart (repeat t 5) = Some (mkS (Some 0) true None 1 f, [ENew t 0; EGot t (Some 0)]) /\ forall u, f u = Outside).
  { cbn [repeat srun]. unfold sstep at 1; cbn [sstart spcs replaced sgo].
    repeat (unfold sstep at 1; cbn [spcs replaced instance create_lock fresh sgo sstart]; rewrite upds_same; cbn [create_lock replaced instance fresh]).
    eexists; split; [reflexivity|]. intros u. destruct (Nat.eq_dec u t) as [->|N]; [apply upds_same|rewrite !upds_other by exact N; reflexivity]. }
  destruct F as (f & F & Ff). rewrite (S _ l _ _ _ F) in E.
  destruct (srun (mkS (Some 0) true None 1 f) l) as [[s2 e2]|] eqn:E2; [|discriminate]. injection E as <- <-.
  assert (W : settled (mkS (Some 0) true None 1 f) 0) by (split; [reflexivity|split; [reflexivity|intros u; cbn; rewrite Ff; reflexivity]]).
  destruct (settled_run _ _ _ _ _ W E2) as (_ & C & G).
  cbn [app created handed]; rewrite C. split; [reflexivity|]. intros u x [H|H]; [injection H as <- <-; reflexivity|apply (G u), H].
Qed.

(** What fails: two threads whose first requests overlap can be handed different objects - the thread that looked up the original __new__ and
    waited for the lock creates a second instance and replaces the first. *)
Theorem C46_one_instance_refuted : ~ forall l s ev t x u y, srun sstart l = Some (s, ev) -> In (t, x) (handed ev) -> In (u, y) (handed ev) -> x = y.
Proof.
  intros H. destruct (srun sstart [0; 1; 0; 0; 0; 0; 1; 1; 1; 1]) as [[s ev]|] eqn:E; [|vm_compute in E; discriminate].
  assert (Q : ev = [ENew 0 0; EGot 0 (Some 0); ENew 1 1; EGot 1 (Some 1)]) by (vm_compute in E; injection E as _ <-; reflexivity).
  pose proof (H _ _ _ 0 (Some 0) 1 (Some 1) E) as D. rewrite Q in D. cbn in D. assert (X : Some 0 = Some 1) by (apply D; auto). discriminate.
Qed.
(** The second object stays: what is asked for afterwards differs from what the first thread holds. *)
Example ex_two : option_map snd (srun sstart [0; 1; 0; 0; 0; 0; 1; 1; 1; 1; 0; 0; 2; 2]) =
  Some [ENew 0 0; EGot 0 (Some 0); ENew 1 1; EGot 1 (Some 1); EGot 0 (Some 1); EGot 2 (Some 1)].
Proof. vm_compute; reflexivity. Qed.
Example ex_alone : option_map snd (srun sstart [7; 7; 7; 7; 7; 8; 9; 8; 9; 7; 7]) =
  Some [ENew 7 0; EGot 7 (Some 0); EGot 8 (Some 0); EGot 9 (Some 0); EGot 7 (Some 0)].
Proof. vm_compute; reflexivity. Qed.

Print Assumptions C46_created.
Print Assumptions C46_own.
Print Assumptions C46_settles.
Print Assumptions C46_first_alone.
Print Assumptions C46_one_instance_refuted.
