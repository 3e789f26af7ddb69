(** C37: which records a handler acts on, and when its alternative is called. *)
From Verif Require Import Base Hnd_Model.
Local Open Scope string_scope.
Local Open Scope list_scope.

Section HandlersProps.
  Variables W V C : Type.
  Variable truthy : V -> bool.
  Variable is_exception : exn -> bool.
  Notation handler := (handler W V C).
  Notation alternative := (alternative W V C).
  Notation log := (log V).
  Notation call := (call W V C truthy is_exception).

  (** ** What is expected, in words of the documentation *)
  Definition h_name (h : handler) := let '(H _ _ _ n _ _ _ _ _) := h in n.
  Definition h_errors (h : handler) := let '(H _ _ _ _ b _ _ _ _) := h in b.
  Definition h_filter (h : handler) := let '(H _ _ _ _ _ f _ _ _) := h in f.
  Definition h_content (h : handler) := let '(H _ _ _ _ _ _ c _ _) := h in c.
  Definition h_do (h : handler) := let '(H _ _ _ _ _ _ _ d _) := h in d.
  Definition h_alt (h : handler) := let '(H _ _ _ _ _ _ _ _ a) := h in a.

  (** The record is about a success: the field is absent or counts as true. *)
  Definition about_success (l : log) : Prop := forall v, dget String.eqb l "success" = Some v -> truthy v = true.
  Definition silenced (h : handler) (l : log) : Prop := h_errors h = true /\ about_success l.

  (** One try of a handler, without its alternative: done, given up (refused or failed), or an exception that leaves it. *)
  Inductive outcome : Type := Done | GaveUp | Raised (e : exn).
  Inductive passes (h : handler) (w : W) (l : log) : W -> list ev -> Prop :=
  | P_no_filter : ~ silenced h l -> h_filter h = None -> passes h w l w []
  | P_filter f w1 a : ~ silenced h l -> h_filter h = Some f -> f w l = (w1, Ok a) -> a <> ABool false ->
      passes h w l w1 [EFilter (h_name h)].
  Inductive tries (h : handler) (w : W) (l : log) : W -> list ev -> outcome -> Prop :=
  | T_silenced : silenced h l -> tries h w l w [] GaveUp
  | T_refused f w1 : ~ silenced h l -> h_filter h = Some f -> f w l = (w1, Ok (ABool false)) ->
      tries h w l w1 [EFilter (h_name h)] GaveUp
  | T_filter_raised f w1 e : ~ silenced h l -> h_filter h = Some f -> f w l = (w1, Err e) ->
      tries h w l w1 [EFilter (h_name h)] (Raised e)
  | T_no_content w1 t1 w2 e : passes h w l w1 t1 -> h_content h w1 l = (w2, Err e) ->
      tries h w l w2 (t1 ++ [EContent (h_name h)]) (if is_exception e then GaveUp else Raised e)
  | T_failed w1 t1 w2 c w3 e : passes h w l w1 t1 -> h_content h w1 l = (w2, Ok c) -> h_do h w2 c = (w3, Err e) ->
      tries h w l w3 (t1 ++ [EContent (h_name h); EDo (h_name h)]) (if is_exception e then GaveUp else Raised e)
  | T_done w1 t1 w2 c w3 : passes h w l w1 t1 -> h_content h w1 l = (w2, Ok c) -> h_do h w2 c = (w3, Ok tt) ->
      tries h w l w3 (t1 ++ [EContent (h_name h); EDo (h_name h)]) Done.

  (** The alternative of a handler, called on the record. *)
  Inductive alt_runs (h : handler) (w : W) (l : log) : W -> list ev -> Res unit -> Prop :=
  | A_none : h_alt h = ANone _ _ _ -> alt_runs h w l w [] (Ok tt)
  | A_fun f w1 r : h_alt h = AFun _ _ _ f -> f w l = (w1, r) -> alt_runs h w l w1 [EAlt (h_name h)] r
  | A_handler g w1 t1 r : h_alt h = AHandler _ _ _ g -> call g w l = (w1, t1, r) -> alt_runs h w l w1 t1 r.

  Lemma silenced_dec : forall h l, (h_errors h && match dget String.eqb l "success" with Some v => truthy v | None => true end)%bool = true <-> silenced h l.
  Proof.
    intros h l; unfold silenced, about_success; rewrite andb_true_iff; split; intros [A B]; split; auto.
    - intros v E; rewrite E in B; exact B.
    - destruct (dget String.eqb l "success") as [v|]; [apply B; reflexivity|reflexivity].
  Qed.

  Lemma passes_det : forall h w l w1 t1 w2 t2, passes h w l w1 t1 -> passes h w l w2 t2 -> w1 = w2 /\ t1 = t2.
  Proof. intros h w l w1 t1 w2 t2 A B; destruct A, B; try congruence; split; congruence. Qed.

  (** The try is always defined, and by the record and the world alone. *)
  Lemma tries_det : forall h w l w1 t1 o1 w2 t2 o2, tries h w l w1 t1 o1 -> tries h w l w2 t2 o2 -> w1 = w2 /\ t1 = t2 /\ o1 = o2.
  Proof.
    intros h w l w1 t1 o1 w2 t2 o2 A B.
    assert (N : forall w' t', passes h w l w' t' -> ~ silenced h l) by (intros ? ? [? ?|? ? ? ? ?]; assumption).
    assert (F : forall w' t', passes h w l w' t' -> forall f w1 r, h_filter h = Some f -> f w l = (w1, r) -> exists a, r = Ok a /\ a <> ABool false).
    { intros w' t' Q f w0 r E1 E2; destruct Q as [? ?|f' ? a ? ? ? ?]; [congruence|exists a; split; congruence]. }
    destruct A as [As|f w1 An Af Ae|f w1 e An Af Ae|w1 t1 w2' e Ap Ac|w1 t1 w2' c w3 e Ap Ac Ad|w1 t1 w2' c w3 Ap Ac Ad];
    destruct B as [Bs|g v1 Bn Bf Be|g v1 e' Bn Bf Be|v1 s1 v2 e' Bp Bc|v1 s1 v2 c' v3 e' Bp Bc Bd|v1 s1 v2 c' v3 Bp Bc Bd];
    try (exfalso; now apply (N _ _ Ap)); try (exfalso; now apply (N _ _ Bp)); try contradiction;
    try (destruct (F _ _ Ap _ _ _ Bf Be) as (a & Ea & Na); exfalso; congruence);
    try (destruct (F _ _ Bp _ _ _ Af Ae) as (a & Ea & Na); exfalso; congruence);
    try (destruct (passes_det _ _ _ _ _ _ _ Ap Bp) as [-> ->]);
    try (rewrite Ac in Bc; inversion Bc; subst; clear Bc); try (rewrite Ad in Bd; inversion Bd; subst; clear Bd);
    repeat split; congruence.
  Qed.

  Lemma tries_total : forall h w l, exists w1 t1 o, tries h w l w1 t1 o.
  Proof.
    intros h w l.
    destruct ((h_errors h && match dget String.eqb l "success" with Some v => truthy v | None => true end)%bool) eqn:S.
    { apply silenced_dec in S; eexists _, _, _; apply T_silenced; exact S. }
    assert (N : ~ silenced h l) by (intros K; apply silenced_dec in K; congruence).
    assert (G : forall w1 t1, passes h w l w1 t1 -> exists w1 t1 o, tries h w l w1 t1 o).
    { intros w1 t1 P; destruct (h_content h w1 l) as [w2 [c|e]] eqn:Ec.
      - destruct (h_do h w2 c) as [w3 [[]|e]] eqn:Ed; eexists _, _, _; [eapply T_done|eapply T_failed]; eassumption.
      - eexists _, _, _; eapply T_no_content; eassumption. }
    destruct (h_filter h) as [f|] eqn:Ef; [|eapply G, P_no_filter; assumption].
    destruct (f w l) as [w1 [a|e]] eqn:Er.
    - destruct a as [[]|].
      + eapply G, P_filter; [exact N|exact Ef|exact Er|discriminate].
      + eexists _, _, _; eapply T_refused; eassumption.
      + eapply G, P_filter; [exact N|exact Ef|exact Er|discriminate].
    - eexists _, _, _; eapply T_filter_raised; eassumption.
  Qed.

  (** C37: a call is one try and, exactly if the try gave up, then the alternative on the same record. *)
  Theorem C37_call : forall h w l w1 t1 o, tries h w l w1 t1 o ->
    match o with
    | Done => call h w l = (w1, t1, Ok tt)
    | Raised e => call h w l = (w1, t1, Err e)
    | GaveUp => exists w2 t2 r, alt_runs h w1 l w2 t2 r /\ call h w l = (w2, t1 ++ t2, r)
    end.
  Proof.
    intros h w l w1 t1 o T.
    assert (AR : forall w, exists w2 t2 r, alt_runs h w l w2 t2 r /\
      match h_alt h with ANone _ _ _ => (w, [], Ok tt) | AFun _ _ _ f => let '(w1, r) := f w l in (w1, [EAlt (h_name h)], r) | AHandler _ _ _ g => call g w l end = (w2, t2, r)).
    { intros v; destruct (h_alt h) as [|f|g] eqn:Ea.
      - eexists _, _, _; split; [apply A_none; exact Ea|reflexivity].
      - destruct (f v l) as [w2 r] eqn:Ef; eexists _, _, _; split; [eapply A_fun; eassumption|reflexivity].
      - destruct (call g v l) as [[w2 t2] r] eqn:Eg; eexists _, _, _; split; [eapply A_handler; eassumption|reflexivity]. }
    assert (TD : forall w1 t1, passes h w l w1 t1 -> to_do W V truthy (h_name h) (h_errors h) (h_filter h) w l = (w1, t1, Ok true)).
    { intros v s [N F|f v' a N F E Na]; unfold to_do.
      - destruct ((h_errors h && _)%bool) eqn:S; [exfalso; apply N, silenced_dec, S|rewrite F; reflexivity].
      - destruct ((h_errors h && _)%bool) eqn:S; [exfalso; apply N, silenced_dec, S|rewrite F, E].
        destruct a as [[]|]; [reflexivity|contradiction|reflexivity]. }
    destruct h as [n oe flt gc d al] eqn:Eh; rewrite <- Eh in *.
    assert (U : call h w l =
      let run_alt (w : W) := match h_alt h with ANone _ _ _ => (w, [], Ok tt) | AFun _ _ _ f => let '(w1, r) := f w l in (w1, [EAlt (h_name h)], r) | AHandler _ _ _ g => call g w l end in
      let '(w1, t1, dd) := to_do W V truthy (h_name h) (h_errors h) (h_filter h) w l in
      match dd with
      | Err e => (w1, t1, Err e)
      | Ok false => let '(w2, t2, r) := run_alt w1 in (w2, t1 ++ t2, r)
      | Ok true =>
        let '(w2, c) := h_content h w1 l in
        match c with
        | Err e => if is_exception e then let '(w3, t3, r) := run_alt w2 in (w3, t1 ++ [EContent (h_name h)] ++ t3, r)
                   else (w2, t1 ++ [EContent (h_name h)], Err e)
        | Ok c => let '(w3, r) := h_do h w2 c in
            match r with
            | Ok _ => (w3, t1 ++ [EContent (h_name h); EDo (h_name h)], Ok tt)
            | Err e => if is_exception e then let '(w4, t4, r) := run_alt w3 in (w4, t1 ++ [EContent (h_name h); EDo (h_name h)] ++ t4, r)
                       else (w3, t1 ++ [EContent (h_name h); EDo (h_name h)], Err e)
            end
        end
      end) by (rewrite Eh; reflexivity).
    rewrite U; clear U; cbv zeta; clear Eh.
    destruct T as [S|f w1 N F E|f w1 e N F E|w1 t1 w2 e P Ec|w1 t1 w2 c w3 e P Ec Ed|w1 t1 w2 c w3 P Ec Ed].
    - destruct (AR w) as (w2 & t2 & r & A & E); exists w2, t2, r; split; [exact A|].
      unfold to_do; apply silenced_dec in S; rewrite S, E; reflexivity.
    - destruct (AR w1) as (w2 & t2 & r & A & E'); exists w2, t2, r; split; [exact A|].
      unfold to_do; destruct ((h_errors h && _)%bool) eqn:S; [exfalso; apply N, silenced_dec, S|rewrite F, E, E'; reflexivity].
    - unfold to_do; destruct ((h_errors h && _)%bool) eqn:S; [exfalso; apply N, silenced_dec, S|rewrite F, E; reflexivity].
    - rewrite (TD _ _ P), Ec; destruct (is_exception e) eqn:X; [|reflexivity].
      destruct (AR w2) as (w3 & t3 & r & A & E'); exists w3, t3, r; split; [exact A|rewrite E', <- app_assoc; reflexivity].
    - rewrite (TD _ _ P), Ec, Ed; destruct (is_exception e) eqn:X; [|reflexivity].
      destruct (AR w3) as (w4 & t4 & r & A & E'); exists w4, t4, r; split; [exact A|rewrite E', <- app_assoc; reflexivity].
    - rewrite (TD _ _ P), Ec, Ed; reflexivity.
  Qed.

  (** C37: an absent filter never refuses; only_errors concerns only records about successes. *)
  Theorem C37_acts_when : forall h w l w1 t1 o, tries h w l w1 t1 o ->
    (In (EContent (h_name h)) t1 <-> exists w', exists t', passes h w l w' t').
  Proof.
    intros h w l w1 t1 o T; destruct T as [S|f w1 N F E|f w1 e N F E|w1 t1 w2 e P Ec|w1 t1 w2 c w3 e P Ec Ed|w1 t1 w2 c w3 P Ec Ed].
    - split; [intros []|intros (? & ? & [N ?|? ? ? N ? ? ?]); contradiction].
    - split; [intros [K|[]]; discriminate|intros (? & ? & [? K|f' ? a ? K1 K2 K3]); congruence].
    - split; [intros [K|[]]; discriminate|intros (? & ? & [? K|f' ? a ? K1 K2 K3]); congruence].
    - split; [eauto|intros _; apply in_or_app; right; left; reflexivity].
    - split; [eauto|intros _; apply in_or_app; right; left; reflexivity].
    - split; [eauto|intros _; apply in_or_app; right; left; reflexivity].
  Qed.

  (** C37: with an alternative function, and filters and functions that raise nothing but ordinary exceptions,
      exactly one of the two happens: the action is completed, or the alternative is called (once, and last). *)
  Definition count (p : ev -> bool) (t : list ev) : nat := length (filter p t).
  Definition is_alt (e : ev) : bool := match e with EAlt _ => true | _ => false end.
  Lemma tries_no_alt : forall h w l w1 t1 o, tries h w l w1 t1 o -> count is_alt t1 = 0.
  Proof.
    assert (G : forall h w l w1 t1, passes h w l w1 t1 -> count is_alt t1 = 0) by (intros ? ? ? ? ? []; reflexivity).
    intros h w l w1 t1 o T; destruct T as [S|f w1 N F E|f w1 e N F E|w1 t1 w2 e P Ec|w1 t1 w2 c w3 e P Ec Ed|w1 t1 w2 c w3 P Ec Ed];
    try reflexivity; apply G in P; unfold count in *; rewrite filter_app, app_length, P; reflexivity.
  Qed.
  Theorem C37_done_or_alt : forall h f w l w1 t1 o, h_alt h = AFun _ _ _ f -> tries h w l w1 t1 o ->
    (o = Done -> count is_alt (snd (fst (call h w l))) = 0 /\ snd (call h w l) = Ok tt) /\
    (o = GaveUp -> exists t, snd (fst (call h w l)) = t ++ [EAlt (h_name h)] /\ count is_alt t = 0 /\ snd (call h w l) = snd (f w1 l)) /\
    (forall e, o = Raised e -> count is_alt (snd (fst (call h w l))) = 0 /\ snd (call h w l) = Err e).
  Proof.
    intros h f w l w1 t1 o Ea T; pose proof (C37_call _ _ _ _ _ _ T) as K; pose proof (tries_no_alt _ _ _ _ _ _ T) as Z.
    split; [|split].
    - intros ->; rewrite K; cbn; split; [exact Z|reflexivity].
    - intros ->; destruct K as (w2 & t2 & r & A & E); rewrite E; cbn [fst snd]; destruct A as [A|g w2 r A Ef|g w2 t2 r A Eg]; try congruence.
      rewrite Ea in A; injection A as <-; exists t1; rewrite Ef; split; [reflexivity|split; [exact Z|reflexivity]].
    - intros e ->; rewrite K; cbn; split; [exact Z|reflexivity].
  Qed.

  (** ** Chains of handlers, each the alternative of the one before. *)
  Fixpoint link (h : nat * bool * option (W -> log -> W * Res answer) * (W -> log -> W * Res C) * (W -> C -> W * Res unit))
      (hs : list (nat * bool * option (W -> log -> W * Res answer) * (W -> log -> W * Res C) * (W -> C -> W * Res unit))) : handler :=
    let '(n, b, f, c, d) := h in
    H _ _ _ n b f c d match hs with [] => ANone _ _ _ | g :: r => AHandler _ _ _ (link g r) end.

  (** The first handler that does not give up decides; the ones after it are not touched. *)
  Inductive race : list handler -> W -> log -> W -> list ev -> Res unit -> Prop :=
  | R_nobody w l : race [] w l w [] (Ok tt)
  | R_done h r w l w1 t1 : tries h w l w1 t1 Done -> race (h :: r) w l w1 t1 (Ok tt)
  | R_raised h r w l w1 t1 e : tries h w l w1 t1 (Raised e) -> race (h :: r) w l w1 t1 (Err e)
  | R_next h r w l w1 t1 w2 t2 x : tries h w l w1 t1 GaveUp -> race r w1 l w2 t2 x -> race (h :: r) w l w2 (t1 ++ t2) x.

  Fixpoint links (h : nat * bool * option (W -> log -> W * Res answer) * (W -> log -> W * Res C) * (W -> C -> W * Res unit)) hs : list handler :=
    link h hs :: match hs with [] => [] | g :: r => links g r end.

  (** C37: a record given to a chain of handlers is dealt with by the first one that accepts it and does not fail. *)
  Theorem C37_chain : forall hs h w l, exists w1 t1 r, race (links h hs) w l w1 t1 r /\ call (link h hs) w l = (w1, t1, r).
  Proof.
    induction hs as [|g r IH]; intros h w l.
    - destruct (tries_total (link h []) w l) as (w1 & t1 & o & T); pose proof (C37_call _ _ _ _ _ _ T) as K.
      destruct o as [| |e].
      + exists w1, t1, (Ok tt); split; [apply R_done; exact T|exact K].
      + destruct K as (w2 & t2 & x & A & E); assert (Ea : h_alt (link h []) = ANone _ _ _) by (destruct h as [[[[? ?] ?] ?] ?]; reflexivity).
        destruct A as [A|f w2 x A Ef|g w2 t2 x A Eg]; try congruence.
        exists w1, (t1 ++ []), (Ok tt); split; [|exact E].
        eapply R_next; [exact T|apply R_nobody].
      + exists w1, t1, (Err e); split; [apply R_raised; exact T|exact K].
    - destruct (tries_total (link h (g :: r)) w l) as (w1 & t1 & o & T); pose proof (C37_call _ _ _ _ _ _ T) as K.
      destruct o as [| |e].
      + exists w1, t1, (Ok tt); split; [apply R_done; exact T|exact K].
      + destruct K as (w2 & t2 & x & A & E); assert (Ea : h_alt (link h (g :: r)) = AHandler _ _ _ (link g r)) by (destruct h as [[[[? ?] ?] ?] ?]; reflexivity).
        destruct A as [A|f w2 x A Ef|k w2 t2 x A Eg]; try congruence.
        rewrite Ea in A; injection A as <-.
        destruct (IH g w1 l) as (w3 & t3 & y & R & E'); rewrite Eg in E'; injection E' as -> -> ->.
        exists w3, (t1 ++ t3), y; split; [|exact E].
        eapply R_next; [exact T|exact R].
      + exists w1, t1, (Err e); split; [apply R_raised; exact T|exact K].
  Qed.

  (** C37: the constructor accepts exactly a bool and functions of the right signature (or None). *)
  Theorem C37_constructor : forall n oe f c d a,
    (forall h, make W V C n oe f c d a = Ok h -> exists b, oe = GBool b /\ f <> PBad /\ a <> PBad /\
       h_errors h = b /\ h_filter h = match f with PGood f => Some f | _ => None end /\
       h_alt h = match a with PGood a => a | _ => ANone _ _ _ end) /\
    (forall e, make W V C n oe f c d a = Err e -> e = EValueError /\ (oe = GOther \/ f = PBad \/ a = PBad)).
  Proof.
    intros n oe f c d a; unfold make; destruct oe as [b|], f as [|f|], a as [|a|]; split; intros x E; try discriminate;
    injection E as <-; try (exists b; repeat split; discriminate); auto.
  Qed.
End HandlersProps.

(** The claim "never both" is false: an action that fails half way is followed by the alternative. *)
Definition yes : nat -> log nat -> nat * Res nat := fun w _ => (w, Ok 0).
Theorem C37_never_both_refuted : exists (h : handler nat nat nat) w l,
  snd (fst (call nat nat nat (fun v => Nat.ltb 0 v) (fun _ => true) h w l)) = [EContent 1; EDo 1; EAlt 1].
Proof. exists (H _ _ _ 1 false None yes (fun w _ => (S w, Err EValueError)) (AFun _ _ _ (fun w _ => (w, Ok tt)))), 0, []; reflexivity. Qed.
(** A filter that answers 0 or None does not refuse: only the two bools count. *)
Theorem C37_falsy_answer_refuses_refuted : exists (h : handler nat nat nat) w l,
  h_filter _ _ _ h = Some (fun w _ => (w, Ok AOther)) /\
  snd (fst (call nat nat nat (fun v => Nat.ltb 0 v) (fun _ => true) h w l)) = [EFilter 1; EContent 1; EDo 1].
Proof. exists (H _ _ _ 1 false (Some (fun w _ => (w, Ok AOther))) yes (fun w _ => (S w, Ok tt)) (ANone _ _ _)), 0, []; split; reflexivity. Qed.
(** A filter that raises stops the handler: neither the action nor the alternative. *)
Theorem C37_filter_failure_goes_to_alt_refuted : exists (h : handler nat nat nat) w l,
  h_alt _ _ _ h <> ANone _ _ _ /\
  call nat nat nat (fun v => Nat.ltb 0 v) (fun _ => true) h w l = (w, [EFilter 1], Err EValueError).
Proof. exists (H _ _ _ 1 false (Some (fun w _ => (w, Err EValueError))) yes (fun w _ => (S w, Ok tt)) (AFun _ _ _ (fun w _ => (w, Ok tt)))), 0, []; split; [discriminate|reflexivity]. Qed.

Example ex_only_errors :
  let h := H nat nat nat 7 true None yes (fun w _ => (S w, Ok tt)) (AFun _ _ _ (fun w _ => (w + 10, Ok tt))) in
  let c := call nat nat nat (fun v => Nat.ltb 0 v) (fun _ => true) h 0 in
  c [("success", 1)] = (10, [EAlt 7], Ok tt) /\ c [("success", 0)] = (1, [EContent 7; EDo 7], Ok tt) /\ c [("level", 1)] = (10, [EAlt 7], Ok tt).
Proof. repeat split. Qed.
Example ex_chain :
  let refuse := Some (fun (w : nat) (_ : log nat) => (w, Ok (ABool false))) in
  let ok := fun (w : nat) (_ : nat) => (S w, Ok tt) in let bad := fun (w : nat) (_ : nat) => (w, @Err unit EValueError) in
  call nat nat nat (fun v => Nat.ltb 0 v) (fun _ => true) (link _ _ _ (1, false, refuse, yes, ok) [(2, false, None, yes, bad); (3, false, None, yes, ok); (4, false, None, yes, ok)]) 0 []
  = (1, [EFilter 1; EContent 2; EDo 2; EContent 3; EDo 3], Ok tt).
Proof. reflexivity. Qed.

Print Assumptions C37_call.
Print Assumptions C37_done_or_alt.
Print Assumptions C37_chain.
Print Assumptions C37_constructor.
