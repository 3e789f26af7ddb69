(** C67: the limit of time of the exit hook (time_limit). *)
From Coq Require Import ZArith.
From Verif Require Import Base Sig_Model Sig_Props Limit_Model.
Local Open Scope string_scope.
Local Open Scope list_scope.
Arguments Ret {V}. Arguments Raise {V}. Arguments Done {V}. Arguments Work {V}.
Arguments PDelay {V}. Arguments PFree {V}. Arguments PStart {V}. Arguments PBody {V}. Arguments PReturn {V}. Arguments PExcept {V}.
Arguments PFinally {V}. Arguments PAfter {V}. Arguments POut {V}. Arguments at_ {V}. Arguments tm {V}. Arguments pending {V}. Arguments mkSt {V}.

(** ** What is expected *)
(** The outcome of the function if nobody interrupts it. *)
Fixpoint straight {V} (b : body V) : outcome V := match b with Done o => o | Work n _ => straight n end.
(** A KeyboardInterrupt that comes out of the function is taken for the end of the time. *)
Definition as_timeout {V} (o : outcome V) : outcome V := match o with Raise XInterrupt => Raise XTimeout | _ => o end.
(** A function that does not catch KeyboardInterrupt. *)
Inductive lets_through {V} : body V -> Prop :=
| T_done o : lets_through (Done o)
| T_work n : lets_through n -> lets_through (Work n (Done (Raise XInterrupt))).
(** The places at which interrupts were received. *)
Definition received {V} (e : list (ev V)) : list (pc V) := flat_map (fun x => match x with Some p => [p] | None => [] end) e.
Definition in_try {V} (p : pc V) : Prop := match p with PStart | PBody _ | PReturn _ => True | _ => False end.

Lemma received_app : forall V (a b : list (ev V)), received (a ++ b) = received a ++ received b.
Proof. intros; apply flat_map_app. Qed.

Section C67.
  Variable V : Type.
  Variable limited : bool.
  Variable b0 : body V.
  Local Notation run := (run V limited b0). Local Notation step := (step V limited b0). Local Notation start := (start V).

  (** The outcome that the caller sees if no interrupt comes any more. *)
  Definition future (p : pc V) : outcome V :=
    match p with
    | PDelay => if limited then as_timeout (straight b0) else straight b0
    | PFree b => straight b
    | PStart => as_timeout (straight b0)
    | PBody b => as_timeout (straight b)
    | PReturn v => Ret v
    | PExcept => Raise XTimeout
    | PFinally o | PAfter o | POut o => o
    end.
  Lemma future_advance : forall p t, future (fst (advance V limited b0 p t)) = future p.
  Proof. intros [|b| |b|v| |o|o|o] t; cbn; try reflexivity; [destruct limited; reflexivity|destruct b; reflexivity|destruct b as [[v|[]]|]; reflexivity]. Qed.

  Lemma run_future : forall l s s' e, run s l = Some (s', e) ->
    match received e with
    | [] => future (at_ s') = future (at_ s)
    | x => future (at_ s') = future (interrupted V (last x PDelay))
    end.
  Proof.
    induction l as [|x r IH]; intros s s' e E; cbn in E; [injection E as <- <-; reflexivity|].
    destruct (step s x) as [[s1 e1]|] eqn:E1; [|discriminate]; destruct (run s1 r) as [[s2 e2]|] eqn:E2; [|discriminate]; injection E as <- <-.
    specialize (IH s1 s2 e2 E2); rewrite received_app.
    assert (C : (received e1 = [] /\ future (at_ s1) = future (at_ s)) \/
                exists p, received e1 = [p] /\ at_ s1 = interrupted V p).
    { unfold step in E1; destruct x.
      - destruct (at_ s) eqn:P; [..|discriminate]; (destruct (pending s); [injection E1 as <- <-; right; eexists; split; reflexivity|]);
          left; (match type of E1 with context [advance V limited b0 ?p ?t] => pose proof (future_advance p t) as F; destruct (advance V limited b0 p t) as [q u] end);
          injection E1 as <- <-; split; [reflexivity|exact F|..]; try reflexivity; exact F.
      - destruct (tm s); try discriminate; injection E1 as <- <-; left; auto.
      - destruct (tm s); try discriminate; injection E1 as <- <-; left; auto.
      - injection E1 as <- <-; left; auto. }
    destruct C as [[-> F]|(p & -> & F)]; cbn [app].
    - destruct (received e2); [congruence|exact IH].
    - destruct (received e2) as [|q l0] eqn:Q; [rewrite IH, F; reflexivity|].
      rewrite IH; reflexivity.
  Qed.

  (** C67: if no interrupt reaches the main thread, the caller sees what the function gives, whether there is a limit or not (only a
      KeyboardInterrupt raised by the function itself looks like the end of the time). *)
  Theorem C67_undisturbed : forall l s e o, run start l = Some (s, e) -> at_ s = POut o -> received e = [] ->
    o = if limited then as_timeout (straight b0) else straight b0.
  Proof. intros l s e o E A R; pose proof (run_future l _ s e E) as F; rewrite R, A in F; exact F. Qed.

  (** C67: so TimeoutError is never invented: it means that an interrupt was received, or comes from the function. *)
  Corollary C67_timeout_has_a_cause : forall l s e, run start l = Some (s, e) -> at_ s = POut (Raise XTimeout) ->
    received e <> [] \/ straight b0 = Raise XTimeout \/ straight b0 = Raise XInterrupt.
  Proof.
    intros l s e E A; destruct (received e) eqn:R; [right|left; discriminate].
    pose proof (C67_undisturbed l s e _ E A R) as F; destruct limited; [|auto]; destruct (straight b0) as [v|[]]; cbn in F; auto; discriminate.
  Qed.

  Definition meek_pc (p : pc V) : Prop := match p with PFree b | PBody b => lets_through b | _ => True end.
  Lemma meek_run : lets_through b0 -> forall l s s' e, meek_pc (at_ s) -> run s l = Some (s', e) -> forall p, In p (received e) -> meek_pc p.
  Proof.
    intros B; induction l as [|x r IH]; intros s s' e P E q I; cbn in E; [injection E as <- <-; destruct I|].
    destruct (step s x) as [[s1 e1]|] eqn:E1; [|discriminate]; destruct (run s1 r) as [[s2 e2]|] eqn:E2; [|discriminate]; injection E as <- <-.
    rewrite received_app in I; apply in_app_or in I.
    assert (C : meek_pc (at_ s1) /\ (In q (received e1) -> q = at_ s)).
    { unfold step in E1; destruct x.
      - destruct (at_ s) as [|b| |b|v| |o|o|o] eqn:A; [..|discriminate]; (destruct (pending s);
          [injection E1 as <- <-; split; [|cbn; intros [Z|[]]; auto]|cbn in E1]).
        + exact Logic.I.
        + destruct limited; injection E1 as <- <-; (split; [exact B || exact Logic.I|intros []]).
        + cbn in *; destruct b as [o|n h]; cbn; [exact Logic.I|]; inversion P; constructor.
        + cbn in P; destruct b as [o|n h]; injection E1 as <- <-; (split; [cbn; try exact Logic.I; inversion P; assumption|intros []]).
        + exact Logic.I.
        + injection E1 as <- <-; split; [exact B|intros []].
        + cbn in *; destruct b as [o|n h]; cbn; [exact Logic.I|]; inversion P; constructor.
        + cbn in P; destruct b as [[v|[]]|n h]; injection E1 as <- <-; (split; [cbn; try exact Logic.I; inversion P; assumption|intros []]).
        + exact Logic.I.
        + injection E1 as <- <-; split; [exact Logic.I|intros []].
        + exact Logic.I.
        + injection E1 as <- <-; split; [exact Logic.I|intros []].
        + exact Logic.I.
        + injection E1 as <- <-; split; [exact Logic.I|intros []].
        + exact Logic.I.
        + injection E1 as <- <-; split; [exact Logic.I|intros []].
      - destruct (tm s); try discriminate; injection E1 as <- <-; split; [exact P|intros []].
      - destruct (tm s); try discriminate; injection E1 as <- <-; split; [exact P|intros []].
      - injection E1 as <- <-; split; [exact P|intros []]. }
    destruct C as [M Q]; destruct I as [I|I]; [rewrite (Q I); exact P|eapply (IH s1 s2 e2); eauto].
  Qed.

  (** C67: a function that does not catch KeyboardInterrupt: whatever number of interrupts came, the last one decides: received inside of
      the try block it is the end of the time; received elsewhere (before it, or when the wrapper is already leaving) the caller sees a
      KeyboardInterrupt. *)
  Theorem C67_interrupted : forall l s e o p, lets_through b0 -> limited = true -> run start l = Some (s, e) -> at_ s = POut o ->
    received e <> [] -> p = last (received e) PDelay -> (in_try p -> o = Raise XTimeout) /\ (~ in_try p -> (forall b, p <> PFree b) -> o = Raise XInterrupt).
  Proof.
    intros l s e o p B L E A R ->; pose proof (run_future l _ s e E) as F; rewrite A in F.
    assert (F' : o = future (interrupted V (last (received e) PDelay))) by (destruct (received e); [contradiction|exact F]); clear F; rename F' into F.
    destruct (received e) as [|x r] eqn:Q; [contradiction|]; rewrite <- Q in *.
    assert (In (last (received e) PDelay) (received e)).
    { rewrite Q; generalize (x :: r) (eq_refl : (match x :: r with [] => true | _ => false end) = false); clear; intros l; induction l as [|a [|b q] IH]; intros H; [discriminate|left; reflexivity|].
      right; apply IH; reflexivity. }
    pose proof (meek_run B l start s e I E _ H) as Mk.
    destruct (last (received e) PDelay) as [|b| |b|v| |o'|o'|o'] eqn:P; cbn in F, Mk |- *;
      (split; [intros T; try contradiction|intros T N; try destruct (T Logic.I)]); try exact F; rewrite F.
    - destruct (N b eq_refl).
    - destruct b as [ob|n h]; cbn; [reflexivity|]; inversion Mk; reflexivity.
  Qed.

  Definition quiet (s : st V) (e : list (ev V)) : Prop :=
    match at_ s with
    | PDelay | PFree _ | PStart => tm s = TNew
    | PAfter _ | POut _ => tm s = TWaiting -> exists o, In (Some (PFinally o)) e
    | _ => True
    end.
  Lemma quiet_run : forall l s s' e e0, quiet s e0 -> run s l = Some (s', e) -> quiet s' (e0 ++ e).
  Proof.
    induction l as [|x r IH]; intros s s' e e0 Q E; cbn in E; [injection E as <- <-; rewrite app_nil_r; exact Q|].
    destruct (step s x) as [[s1 e1]|] eqn:E1; [|discriminate]; destruct (run s1 r) as [[s2 e2]|] eqn:E2; [|discriminate]; injection E as <- <-.
    rewrite app_assoc; apply (IH s1 s2 e2 (e0 ++ e1)); [|exact E2].
    unfold quiet, step in *; destruct x.
    - destruct (at_ s) as [|b| |b|v| |o|o|o] eqn:A; [..|discriminate]; (destruct (pending s); [injection E1 as <- <-; cbn|cbn in E1]).
      + rewrite Q; discriminate.
      + destruct limited; injection E1 as <- <-; exact Q.
      + destruct b; cbn; [rewrite Q; discriminate|exact Q].
      + destruct b; injection E1 as <- <-; cbn; [rewrite Q; discriminate|exact Q].
      + exact I.
      + injection E1 as <- <-; exact I.
      + destruct b; exact I.
      + destruct b as [[v|[]]|]; injection E1 as <- <-; exact I.
      + exact I.
      + injection E1 as <- <-; exact I.
      + exact I.
      + injection E1 as <- <-; exact I.
      + intros _; exists o; apply in_or_app; right; left; reflexivity.
      + injection E1 as <- <-; cbn; destruct (tm s); discriminate.
      + intros W; destruct (Q W) as [o' X]; exists o'; apply in_or_app; auto.
      + injection E1 as <- <-; cbn; intros W; destruct (Q W) as [o' X]; exists o'; apply in_or_app; auto.
    - destruct (tm s) eqn:T; try discriminate; injection E1 as <- <-; cbn; destruct (at_ s); try discriminate; try exact I; auto.
    - destruct (tm s) eqn:T; try discriminate; injection E1 as <- <-; cbn; destruct (at_ s); try discriminate; try exact I; auto.
    - injection E1 as <- <-; cbn; destruct (at_ s); auto; rewrite ?app_nil_r; auto.
  Qed.

  (** C67: when the wrapper is left, the timer no longer waits, unless an interrupt came just before the cancelling. *)
  Theorem C67_cancelled : forall l s e o, run start l = Some (s, e) -> at_ s = POut o -> tm s = TWaiting -> exists o', In (Some (PFinally o')) e.
  Proof.
    intros l s e o E A W; pose proof (quiet_run l start s e [] eq_refl E) as Q; unfold quiet in Q; rewrite A in Q; exact (Q W).
  Qed.

  Lemma free_run : limited = false -> forall l s s' e, (match at_ s with PDelay | PFree _ | POut _ => tm s = TNew | _ => False end) ->
    run s l = Some (s', e) -> match at_ s' with PDelay | PFree _ | POut _ => tm s' = TNew | _ => False end.
  Proof.
    intros L; induction l as [|x r IH]; intros s s' e Q E; cbn in E; [injection E as <- <-; exact Q|].
    destruct (step s x) as [[s1 e1]|] eqn:E1; [|discriminate]; destruct (run s1 r) as [[s2 e2]|] eqn:E2; [|discriminate]; injection E as <- <-.
    apply (IH s1 s2 e2); [|exact E2]; unfold step in E1; destruct x.
    - destruct (at_ s) as [|b| |b|v| |o|o|o] eqn:A; try contradiction; [| |discriminate]; (destruct (pending s); [injection E1 as <- <-; cbn|cbn in E1]).
      + exact Q.
      + rewrite L in E1; injection E1 as <- <-; exact Q.
      + destruct b; exact Q.
      + destruct b; injection E1 as <- <-; exact Q.
    - destruct (tm s) eqn:T; try discriminate; destruct (at_ s); try contradiction; discriminate.
    - destruct (tm s) eqn:T; try discriminate; destruct (at_ s); try contradiction; discriminate.
    - injection E1 as <- <-; exact Q.
  Qed.
  (** C67: if the delay function fails or gives nothing sensible there is no timer at all. *)
  Theorem C67_no_limit : forall l s e, limited = false -> run start l = Some (s, e) -> tm s = TNew.
  Proof.
    intros l s e L E; pose proof (free_run L l start s e eq_refl E) as Q; destruct (at_ s); try contradiction; exact Q.
  Qed.
End C67.

Section Delays.
  Variable isident : string -> bool.
  Hypothesis dot_no : isident "." = false.
  (** C67: the argument of the decorator must be a number greater than zero or a callable whose definition has no parameters (except
      keyword-only ones without default, which are not looked at); a number that is accepted always sets the limit. *)
  Theorem C67_argument :
    (forall z, (0 < z)%Z -> accepted isident (DNum (Num z)) = Ok tt /\ gives_limit (Ok (DNum (Num z))) = true) /\
    (forall n, (forall z, n = Num z -> (z <= 0)%Z) -> accepted isident (DNum n) = Err EValueError) /\
    (forall d, po d = [] /\ pk d = [] /\ pk_d d = [] /\ ko_d d = [] /\ star d = None /\ star2 d = None -> accepted isident (DObj (Callable (params d))) = Ok tt) /\
    (forall d, ~ (po d = [] /\ pk d = [] /\ pk_d d = [] /\ ko_d d = [] /\ star d = None /\ star2 d = None) -> accepted isident (DObj (Callable (params d))) = Err EValueError) /\
    (forall o, (forall ps, o <> Callable ps) -> accepted isident (DObj o) = Err EValueError).
  Proof.
    assert (MC : forall d, match_ (init isident []) (Callable (params d)) = Ok true <-> (po d = [] /\ pk d = [] /\ pk_d d = [] /\ ko_d d = [] /\ star d = None /\ star2 d = None)).
    { intros d; rewrite (C47_match isident [] d); cbn [In filter length count count_occ].
      assert (ST : forall (o : option string), (False <-> o <> None) <-> o = None) by (intros [x|]; split; intros H; try discriminate; try reflexivity; [exfalso; apply H; discriminate|split; [intros []|intros K; apply K; reflexivity]]).
      rewrite !ST; split.
      - intros (A & B & C & D & _); destruct (po d), (pk d), (pk_d d), (ko_d d); cbn in C, D; try discriminate; auto 7.
      - intros (-> & -> & -> & -> & -> & ->); cbn; repeat split; auto; intros n []. }
    repeat split.
    - cbn; apply Z.ltb_lt in H; rewrite H; reflexivity.
    - cbn; apply Z.leb_gt in H; rewrite H; reflexivity.
    - intros [z|] H; cbn; [|reflexivity]; specialize (H z eq_refl); apply Z.ltb_ge in H; rewrite H; reflexivity.
    - intros d H; apply MC in H; unfold accepted; rewrite H; reflexivity.
    - intros d H; unfold accepted; destruct (match_ (init isident []) (Callable (params d))) as [[|]|] eqn:E; cbn; [exfalso; apply H, MC, E|reflexivity|discriminate].
    - intros [| |ps] H; [reflexivity..|destruct (H ps eq_refl)].
  Qed.

  (** C67: there is no limit exactly if the delay function raises, or gives something that is not a number, or gives a number that is not
      greater than zero (NaN is no such number: with it a timer is made). *)
  Theorem C67_delay_given : forall r, gives_limit r = false <->
    (exists e, r = Err e) \/ (exists o, r = Ok (DObj o)) \/ (exists z, r = Ok (DNum (Num z)) /\ (z <= 0)%Z).
  Proof.
    intros [[[z|]|o]|e]; cbn; split; intros H; eauto; try reflexivity.
    - right; right; exists z; split; [reflexivity|]; destruct (Z.leb_spec z 0); [assumption|discriminate].
    - destruct H as [[e H]|[[o H]|[y [H1 H2]]]]; try discriminate; injection H1 as <-; apply Z.leb_le in H2; rewrite H2; reflexivity.
    - discriminate.
    - destruct H as [[e H]|[[o H]|[y [H1 H2]]]]; discriminate.
  Qed.
End Delays.

(** A function of one step; and the schedules of the refutations. *)
Definition quick : body nat := Work (Done (Ret 7)) (Done (Raise XInterrupt)).

(** C67: a function that ended in time can still give TimeoutError: the timer interrupts between its end and the cancelling. *)
Theorem C67_result_kept_refuted : ~ (forall l s e o v, run nat true quick (start nat) l = Some (s, e) -> at_ s = POut o -> In (Some (PReturn v)) e -> o = Ret v).
Proof.
  intros H; specialize (H [Main; Main; Main; Main; TimerCheck; TimerCall; Main; Main; Main; Main] _ _ _ 7 eq_refl eq_refl ltac:(cbn; tauto)); discriminate.
Qed.
(** C67: or a KeyboardInterrupt that nobody asked for, when the timer goes off while the wrapper is leaving. *)
Theorem C67_no_stray_interrupt_refuted : ~ (forall l s e, ~ In CtrlC l -> run nat true quick (start nat) l = Some (s, e) -> at_ s <> POut (Raise XInterrupt)).
Proof.
  intros H; refine (H [Main; Main; Main; Main; Main; TimerCheck; TimerCall; Main] _ _ _ eq_refl eq_refl); cbn; intros X; repeat destruct X as [X|X]; try discriminate; exact X.
Qed.
(** C67: or an interrupt of whatever the program does afterwards, though the function ended well and the timer was cancelled. *)
Theorem C67_quiet_afterwards_refuted : ~ (forall l s e, ~ In CtrlC l -> run nat true quick (start nat) l = Some (s, e) -> at_ s = POut (Ret 7) -> pending s = false).
Proof.
  intros H; specialize (H [Main; Main; TimerCheck; Main; Main; Main; Main; Main; TimerCall] _ _ ltac:(cbn; intros X; repeat destruct X as [X|X]; try discriminate; exact X) eq_refl eq_refl); discriminate.
Qed.
(** C67: Ctrl-C of the user is swallowed: it looks like the end of the time (as the docstring says). *)
Theorem C67_ctrl_c_passes_refuted : ~ (forall l s e o, ~ In TimerCheck l -> run nat true quick (start nat) l = Some (s, e) -> at_ s = POut o -> o <> Raise XTimeout).
Proof.
  intros H; refine (H [Main; Main; CtrlC; Main; Main; Main; Main; Main] _ _ _ _ eq_refl eq_refl eq_refl); cbn; intros X; repeat destruct X as [X|X]; try discriminate; exact X.
Qed.

(** Examples: in time; out of time; a function that catches the interrupt; no limit. *)
Example ex_in_time : exists s e, run nat true quick (start nat) [Main; Main; Main; Main; Main; Main; Main] = Some (s, e) /\ at_ s = POut (Ret 7) /\ tm s = TOver /\ received e = [].
Proof. eexists _, _; repeat split. Qed.
Example ex_out_of_time : exists s e, run nat true quick (start nat) [Main; Main; TimerCheck; TimerCall; Main; Main; Main; Main; Main] = Some (s, e) /\ at_ s = POut (Raise XTimeout) /\ lets_through quick.
Proof. eexists _, _; split; [reflexivity|split; [reflexivity|repeat constructor]]. Qed.
Example ex_catches : exists s e, run nat true (Work (Done (Ret 1)) (Done (Ret 2))) (start nat) [Main; Main; TimerCheck; TimerCall; Main; Main; Main; Main; Main] = Some (s, e) /\ at_ s = POut (Ret 2).
Proof. eexists _, _; split; reflexivity. Qed.
Example ex_free : exists s e, run nat false quick (start nat) [Main; CtrlC; Main; Main] = Some (s, e) /\ at_ s = POut (Raise XInterrupt) /\ gives_limit (Err ETypeError) = false.
Proof. eexists _, _; repeat split. Qed.

Print Assumptions C67_undisturbed.
Print Assumptions C67_timeout_has_a_cause.
Print Assumptions C67_interrupted.
Print Assumptions C67_cancelled.
Print Assumptions C67_no_limit.
Print Assumptions C67_argument. Print Assumptions C67_delay_given.
Print Assumptions C67_result_kept_refuted.
Print Assumptions C67_no_stray_interrupt_refuted.
Print Assumptions C67_quiet_afterwards_refuted.
Print Assumptions C67_ctrl_c_passes_refuted.
