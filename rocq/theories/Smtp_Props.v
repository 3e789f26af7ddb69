(** C66: letters sent by several threads through one e-mail handler. *)
From Verif Require Import Base Smtp_Model.
Local Open Scope list_scope.
Arguments EConnect {M}. Arguments ELogin {M}. Arguments EMail {M}. Arguments EQuit {M}. Arguments EEnd {M}.
Arguments PIdle {M}. Arguments PConnect {M}. Arguments PLogin {M}. Arguments PMail {M}. Arguments PQuit {M}.
Arguments server {M}. Arguments conns {M}. Arguments pcs {M}. Arguments todo {M}.

(** ** What is expected, in terms of what happened *)
(** The letters that the server accepted from a thread, and those whose sending was over, with the way it ended. *)
Definition accepted {M} (t : nat) (l : list (ev M)) : list M :=
  flat_map (fun e => match e with EMail u _ m => if Nat.eqb u t then [m] else [] | _ => [] end) l.
Definition ended {M} (t : nat) (l : list (ev M)) : list (M * bool) :=
  flat_map (fun e => match e with EEnd u m b => if Nat.eqb u t then [(m, b)] else [] | _ => [] end) l.
Definition returned {M} (l : list (M * bool)) : list M := map fst (filter snd l).
(** The letter that a thread is sending. *)
Definition current {M} (s : st M) (t : nat) : list M :=
  match pcs s t with PIdle => [] | PConnect m | PLogin m | PMail m | PQuit m => [m] end.

(** One letter, one new connection [c]: how far it can get.  The number tells whether a connection was made. *)
Inductive session {M} (t c : nat) (m : M) : list (ev M) -> nat -> Prop :=
| S_no_connection : session t c m [EEnd t m false] 0
| S_no_login : session t c m [EConnect t c; EEnd t m false] 1
| S_not_accepted : session t c m [EConnect t c; ELogin t c; EEnd t m false] 1
| S_no_goodbye : session t c m [EConnect t c; ELogin t c; EMail t c m; EEnd t m true] 1
| S_full : session t c m [EConnect t c; ELogin t c; EMail t c m; EQuit t c; EEnd t m true] 1.
Inductive sessions {M} (t : nat) : nat -> list (ev M) -> Prop :=
| S_nil c : sessions t c []
| S_cons c m e n r : session t c m e n -> sessions t (c + n) r -> sessions t c (e ++ r).
Fixpoint full_sessions {M} (t c : nat) (ms : list M) : list (ev M) :=
  match ms with [] => [] | m :: r => [EConnect t c; ELogin t c; EMail t c m; EQuit t c; EEnd t m true] ++ full_sessions t (S c) r end.

Section C66.
  Variable M : Type.
  Local Notation run := (run M). Local Notation step := (step M).

  Definition sure (s : st M) (t : nat) : list M := match pcs s t with PQuit m => [m] | _ => [] end.

  Lemma upd_same : forall X (f : nat -> X) t x, upd f t x t = x.
  Proof. intros; unfold upd; rewrite Nat.eqb_refl; reflexivity. Qed.
  Lemma upd_other : forall X (f : nat -> X) t x u, u <> t -> upd f t x u = f u.
  Proof. intros X f t x u N; unfold upd; destruct (Nat.eqb_spec u t); [contradiction|reflexivity]. Qed.

  Lemma step_other : forall s u ok s1 e, step s u ok = Some (s1, e) -> forall t, t <> u -> pcs s1 t = pcs s t /\ todo s1 t = todo s t /\ accepted t e = [] /\ ended t e = [].
  Proof.
    intros s u ok s1 e E t N.
    assert (B : Nat.eqb u t = false) by (apply Nat.eqb_neq; auto).
    unfold step in E; destruct (pcs s u) as [|m|m|m|m] eqn:P;
      repeat match type of E with context [match ?x with _ => _ end] => destruct x eqn:? end; try discriminate; injection E as <- <-;
      cbn; rewrite ?B, ?upd_other by exact N; auto.
  Qed.
  Lemma step_self : forall s t ok s1 e, step s t ok = Some (s1, e) ->
    sure s t ++ accepted t e = returned (ended t e) ++ sure s1 t /\ map fst (ended t e) ++ current s1 t ++ todo s1 t = current s t ++ todo s t.
  Proof.
    intros s t ok s1 e E; unfold sure, current, step in *.
    destruct (pcs s t) as [|m|m|m|m] eqn:P;
      repeat match type of E with context [match ?x with _ => _ end] => destruct x eqn:? end; try discriminate; injection E as <- <-;
      cbn; rewrite ?Nat.eqb_refl, ?upd_same; cbn; auto.
  Qed.

  Lemma accepted_app : forall t (a b : list (ev M)), accepted t (a ++ b) = accepted t a ++ accepted t b.
  Proof. intros; apply flat_map_app. Qed.
  Lemma ended_app : forall t (a b : list (ev M)), ended t (a ++ b) = ended t a ++ ended t b.
  Proof. intros; apply flat_map_app. Qed.

  Lemma run_counts : forall l s s' e t, run s l = Some (s', e) ->
    sure s t ++ accepted t e = returned (ended t e) ++ sure s' t /\ map fst (ended t e) ++ current s' t ++ todo s' t = current s t ++ todo s t.
  Proof.
    induction l as [|[u ok] r IH]; intros s s' e t E; cbn in E; [injection E as <- <-; cbn; rewrite app_nil_r; auto|].
    destruct (step s u ok) as [[s1 e1]|] eqn:E1; [|discriminate]; destruct (run s1 r) as [[s2 e2]|] eqn:E2; [|discriminate]; injection E as <- <-.
    destruct (IH s1 s2 e2 t E2) as [A B]; rewrite accepted_app, ended_app.
    destruct (Nat.eq_dec t u) as [->|N].
    - destruct (step_self s u ok s1 e1 E1) as [A1 B1]; unfold returned in *; rewrite filter_app, !map_app, app_assoc, A1, <- !app_assoc, A; split; [reflexivity|].
      rewrite <- B1, <- B, <- ?app_assoc; reflexivity.
    - destruct (step_other s u ok s1 e1 E1 t N) as (P & T & A1 & B1); rewrite A1, B1; cbn [app]; unfold sure, current in *; rewrite P, T in *; auto.
  Qed.

  (** C66: in every interleaving of any number of threads: the letters of a thread are decided in their order, each once, and the sending of a
      letter returns exactly if the server accepted that letter, once; it raises, so that the record goes to the alternative handler (C37),
      exactly if the letter was not accepted. *)
  Theorem C66_returned_iff_accepted : forall p l s e t, run (start M p) l = Some (s, e) ->
    map fst (ended t e) ++ current s t ++ todo s t = p t /\
    accepted t e = returned (ended t e) ++ match pcs s t with PQuit m => [m] | _ => [] end.
  Proof.
    intros p l s e t E; destruct (run_counts l _ s e t E) as [A B]; split; [exact B|exact A].
  Qed.

  (** Where a single thread is within the session of its letter; [c]: the number of its connection. *)
  Definition prefix (t c : nat) (p : pc M) : list (ev M) :=
    match p with
    | PIdle | PConnect _ => []
    | PLogin _ => [EConnect t c]
    | PMail _ => [EConnect t c; ELogin t c]
    | PQuit m => [EConnect t c; ELogin t c; EMail t c m]
    end.
  Definition alone (t c : nat) (s : st M) : Prop :=
    (forall u, u <> t -> pcs s u = PIdle /\ todo s u = []) /\
    match pcs s t with
    | PIdle | PConnect _ => length (conns s) = c
    | _ => length (conns s) = S c /\ server s = Some c /\ c_open (get_conn M s c) = true
    end.

  Lemma set_nth_length : forall l n x, length (set_nth l n x) = length l.
  Proof. induction l as [|y r IH]; intros [|n] x; cbn; auto. Qed.
  Lemma set_nth_same : forall l n x d, n < length l -> nth n (set_nth l n x) d = x.
  Proof. induction l as [|y r IH]; intros [|n] x d L; cbn in *; [lia|lia|reflexivity|apply IH; lia]. Qed.

  Lemma alone_run : forall t l s s' e c, alone t c s -> run s l = Some (s', e) -> pcs s' t = PIdle -> sessions t c (prefix t c (pcs s t) ++ e).
  Proof.
    intros t; induction l as [|[u ok] r IH]; intros s s' e c [O A] E I; cbn in E.
    { injection E as <- <-; rewrite I; cbn; constructor. }
    destruct (step s u ok) as [[s1 e1]|] eqn:E1; [|discriminate]; destruct (run s1 r) as [[s2 e2]|] eqn:E2; [|discriminate]; injection E as <- <-.
    destruct (Nat.eq_dec u t) as [->|N].
    2:{ destruct (O u N) as [P T]; unfold step in E1; rewrite P, T in E1; discriminate. }
    assert (O1 : forall u, u <> t -> pcs s1 u = PIdle /\ todo s1 u = []).
    { intros u Nu; destruct (step_other s t ok s1 e1 E1 u Nu) as (P & T & _); rewrite P, T; apply O, Nu. }
    unfold step in E1; destruct (pcs s t) as [|m|m|m|m] eqn:P.
    - destruct (todo s t) as [|m q]; [discriminate|]; injection E1 as <- <-.
      specialize (IH _ _ _ c ltac:(split; [exact O1|cbn; rewrite upd_same; exact A]) E2 I); cbn in IH; rewrite upd_same in IH; exact IH.
    - destruct ok; injection E1 as <- <-.
      + rewrite A in *.
        specialize (IH _ _ _ c ltac:(split; [exact O1|cbn; rewrite upd_same, app_length, A; cbn; repeat split; [lia|unfold get_conn; cbn; rewrite app_nth2, A, Nat.sub_diag by lia; reflexivity]]) E2 I).
        cbn in IH; rewrite upd_same in IH; exact IH.
      + specialize (IH _ _ _ c ltac:(split; [exact O1|cbn; rewrite upd_same; exact A]) E2 I); cbn in IH; rewrite upd_same in IH.
        cbn [prefix app]; apply (S_cons t c m [EEnd t m false] 0); [constructor|rewrite Nat.add_0_r; exact IH].
    - destruct A as (L & Sv & Op); rewrite Sv, Op in E1; destruct ok; cbn in E1; injection E1 as <- <-.
      + specialize (IH _ _ _ c ltac:(split; [exact O1|cbn; rewrite upd_same, set_nth_length; repeat split; [exact L|exact Sv|unfold get_conn; cbn; rewrite set_nth_same by lia; reflexivity]]) E2 I).
        cbn in IH; rewrite upd_same in IH; exact IH.
      + specialize (IH _ _ _ (S c) ltac:(split; [exact O1|cbn; rewrite upd_same; exact L]) E2 I); cbn in IH; rewrite upd_same in IH.
        apply (S_cons t c m [EConnect t c; EEnd t m false] 1); [constructor|rewrite Nat.add_1_r; exact IH].
    - destruct A as (L & Sv & Op); rewrite Sv, Op in E1; destruct ok; cbn in E1; injection E1 as <- <-.
      + specialize (IH _ _ _ c ltac:(split; [exact O1|cbn; rewrite upd_same; repeat split; [exact L|exact Sv|exact Op]]) E2 I).
        cbn in IH; rewrite upd_same in IH; exact IH.
      + specialize (IH _ _ _ (S c) ltac:(split; [exact O1|cbn; rewrite upd_same; exact L]) E2 I); cbn in IH; rewrite upd_same in IH.
        apply (S_cons t c m [EConnect t c; ELogin t c; EEnd t m false] 1); [constructor|rewrite Nat.add_1_r; exact IH].
    - destruct A as (L & Sv & Op); rewrite Sv, Op in E1; destruct ok; cbn in E1; injection E1 as <- <-.
      + specialize (IH _ _ _ (S c) ltac:(split; [exact O1|cbn; rewrite upd_same, set_nth_length; exact L]) E2 I); cbn in IH; rewrite upd_same in IH.
        apply (S_cons t c m [EConnect t c; ELogin t c; EMail t c m; EQuit t c; EEnd t m true] 1); [constructor|rewrite Nat.add_1_r; exact IH].
      + specialize (IH _ _ _ (S c) ltac:(split; [exact O1|cbn; rewrite upd_same; exact L]) E2 I); cbn in IH; rewrite upd_same in IH.
        apply (S_cons t c m [EConnect t c; ELogin t c; EMail t c m; EEnd t m true] 1); [constructor|rewrite Nat.add_1_r; exact IH].
  Qed.

  (** C66: if only one thread sends, every letter has a connection of its own, made for it, over which it is sent after the login; the steps of
      two letters are never mixed. *)
  Theorem C66_alone : forall p l s e t, (forall u, u <> t -> p u = []) -> run (start M p) l = Some (s, e) -> pcs s t = PIdle -> sessions t 0 e.
  Proof.
    intros p l s e t O E I; apply (alone_run t l (start M p) s e 0); [split; [intros u N; split; [reflexivity|apply O, N]|reflexivity]|exact E|exact I].
  Qed.

  Lemma working_run : forall t l s s' e c, (forall x, In x l -> snd x = true) -> alone t c s -> run s l = Some (s', e) -> pcs s' t = PIdle ->
    exists ms, current s t ++ todo s t = ms ++ todo s' t /\ prefix t c (pcs s t) ++ e = full_sessions t c ms.
  Proof.
    intros t; induction l as [|[u ok] r IH]; intros s s' e c W [O A] E I; cbn in E.
    { injection E as <- <-; exists []; unfold current; rewrite I; auto. }
    pose proof (W _ (or_introl eq_refl)) as K; cbn in K; subst ok; assert (W' : forall x, In x r -> snd x = true) by (intros x X; apply W; right; exact X).
    destruct (step s u true) as [[s1 e1]|] eqn:E1; [|discriminate]; destruct (run s1 r) as [[s2 e2]|] eqn:E2; [|discriminate]; injection E as <- <-.
    destruct (Nat.eq_dec u t) as [->|N].
    2:{ destruct (O u N) as [P T]; unfold step in E1; rewrite P, T in E1; discriminate. }
    assert (O1 : forall u, u <> t -> pcs s1 u = PIdle /\ todo s1 u = []).
    { intros u Nu; destruct (step_other s t true s1 e1 E1 u Nu) as (P & T & _); rewrite P, T; apply O, Nu. }
    unfold step in E1; unfold current in *; destruct (pcs s t) as [|m|m|m|m] eqn:P.
    - destruct (todo s t) as [|m q]; [discriminate|]; injection E1 as <- <-.
      destruct (IH _ _ _ c W' ltac:(split; [exact O1|cbn; rewrite upd_same; exact A]) E2 I) as (ms & Q1 & Q2); cbn in Q1, Q2; rewrite !upd_same in Q1; rewrite upd_same in Q2; eauto.
    - injection E1 as <- <-; rewrite A in *.
      destruct (IH _ _ _ c W' ltac:(split; [exact O1|cbn; rewrite upd_same, app_length, A; cbn; repeat split; [lia|unfold get_conn; cbn; rewrite app_nth2, A, Nat.sub_diag by lia; reflexivity]]) E2 I) as (ms & Q1 & Q2).
      cbn in Q1, Q2; rewrite upd_same in Q1; rewrite upd_same in Q2; eauto.
    - destruct A as (L & Sv & Op); rewrite Sv, Op in E1; cbn in E1; injection E1 as <- <-.
      destruct (IH _ _ _ c W' ltac:(split; [exact O1|cbn; rewrite upd_same, set_nth_length; repeat split; [exact L|exact Sv|unfold get_conn; cbn; rewrite set_nth_same by lia; reflexivity]]) E2 I) as (ms & Q1 & Q2).
      cbn in Q1, Q2; rewrite upd_same in Q1; rewrite upd_same in Q2; eauto.
    - destruct A as (L & Sv & Op); rewrite Sv, Op in E1; cbn in E1; injection E1 as <- <-.
      destruct (IH _ _ _ c W' ltac:(split; [exact O1|cbn; rewrite upd_same; repeat split; [exact L|exact Sv|exact Op]]) E2 I) as (ms & Q1 & Q2).
      cbn in Q1, Q2; rewrite upd_same in Q1; rewrite upd_same in Q2; eauto.
    - destruct A as (L & Sv & Op); rewrite Sv, Op in E1; cbn in E1; injection E1 as <- <-.
      destruct (IH _ _ _ (S c) W' ltac:(split; [exact O1|cbn; rewrite upd_same, set_nth_length; exact L]) E2 I) as (ms & Q1 & Q2).
      cbn in Q1, Q2; rewrite upd_same in Q1; rewrite upd_same in Q2; exists (m :: ms); cbn in Q1 |- *; rewrite Q1; split; [reflexivity|].
      cbn in Q2; rewrite Q2; reflexivity.
  Qed.

  (** C66: one thread and a server that does what it is asked: every letter is logged in for, accepted, and its connection ended before the
      next one is made. *)
  Theorem C66_working_server : forall p l s e t, (forall u, u <> t -> p u = []) -> (forall x, In x l -> snd x = true) ->
    run (start M p) l = Some (s, e) -> pcs s t = PIdle -> exists ms, p t = ms ++ todo s t /\ e = full_sessions t 0 ms.
  Proof.
    intros p l s e t O W E I; apply (working_run t l (start M p) s e 0 W); [split; [intros u N; split; [reflexivity|apply O, N]|reflexivity]|exact E|exact I].
  Qed.
End C66.

(** Two threads with one letter each; the default number of workers of polog is two. *)
Definition two (t : nat) : list nat := match t with 0 => [10] | 1 => [20] | _ => [] end.
(** Thread 0 has sent its letter when thread 1 makes its connection; thread 0 then ends the connection of thread 1. *)
Definition meet : list (nat * bool) := [(0, true); (0, true); (0, true); (0, true); (1, true); (1, true); (0, true); (1, true)].
Example ex_meet : exists s, run nat (start nat two) meet = Some (s, [EConnect 0 0; ELogin 0 0; EMail 0 0 10; EConnect 1 1; EQuit 0 1; EEnd 0 10 true; EEnd 1 20 false]).
Proof. eexists; reflexivity. Qed.

(** C66: with two threads a letter can be lost to the other thread though the server does all it is asked. *)
Theorem C66_working_server_many_refuted : ~ (forall p l s e, (forall x, In x l -> snd x = true) -> run nat (start nat p) l = Some (s, e) -> forall t m, ~ In (EEnd t m false) e).
Proof.
  intros H; destruct ex_meet as [s E]; refine (H two meet s _ _ E 1 20 _); [|cbn; tauto].
  intros x X; unfold meet in X; cbn in X; repeat destruct X as [<-|X]; try reflexivity; destruct X.
Qed.
(** C66: and a connection is left without a QUIT, though no call failed but the login on the connection that the other thread had ended. *)
Theorem C66_connections_ended_refuted : ~ (forall p l s e, (forall x, In x l -> snd x = true) -> run nat (start nat p) l = Some (s, e) -> (forall t, pcs s t = PIdle /\ todo s t = []) ->
  forall t c, In (EConnect t c) e -> exists u, In (EQuit u c) e).
Proof.
  intros H; assert (X : exists u, @In (ev nat) (EQuit u 0) [EConnect 0 0; ELogin 0 0; EMail 0 0 10; EConnect 1 1; EQuit 0 1; EEnd 0 10 true; EEnd 1 20 false]).
  { refine (H two meet _ _ _ eq_refl _ 0 0 _); [|intros [|[|t]]; cbn; auto|cbn; tauto].
    intros x X; unfold meet in X; cbn in X; repeat destruct X as [<-|X]; try reflexivity; destruct X. }
  destruct X as [u X]; cbn in X; repeat destruct X as [X|X]; try discriminate; destruct X.
Qed.
(** C66: a letter can go over the connection of another thread, and before anybody has logged in there. *)
Theorem C66_own_connection_refuted : ~ (forall p l s e, run nat (start nat p) l = Some (s, e) -> forall t c m, In (EMail t c m) e -> In (EConnect t c) e \/ exists u, In (ELogin u c) e).
Proof.
  intros H; specialize (H two [(0, true); (0, true); (0, true); (1, true); (1, true); (0, true)] _ _ eq_refl 0 1 10 ltac:(cbn; tauto)).
  destruct H as [H|[u H]]; cbn in H; repeat destruct H as [H|H]; try discriminate; destruct H.
Qed.
(** C66: even one thread leaves the connection without a QUIT if the login or the letter is refused. *)
Theorem C66_refused_connection_ended_refuted : ~ (forall p l s e t, (forall u, u <> t -> p u = []) -> run nat (start nat p) l = Some (s, e) -> pcs s t = PIdle ->
  forall c, In (EConnect t c) e -> In (EQuit t c) e).
Proof.
  intros H; specialize (H (fun t => match t with 0 => [10] | _ => [] end) [(0, true); (0, true); (0, false)] _ _ 0 ltac:(intros [|u] N; [destruct N; reflexivity|reflexivity]) eq_refl eq_refl 0 ltac:(cbn; tauto)).
  cbn in H; repeat destruct H as [H|H]; try discriminate; destruct H.
Qed.

(** Example: three letters, the second refused at login, by one thread among none. *)
Example ex_alone : exists s, run nat (start nat (fun t => match t with 3 => [10; 20; 30] | _ => [] end))
  [(3, true); (3, true); (3, true); (3, true); (3, true); (3, true); (3, true); (3, false); (3, true); (3, true); (3, true); (3, true); (3, true)] =
  Some (s, [EConnect 3 0; ELogin 3 0; EMail 3 0 10; EQuit 3 0; EEnd 3 10 true; EConnect 3 1; EEnd 3 20 false; EConnect 3 2; ELogin 3 2; EMail 3 2 30; EQuit 3 2; EEnd 3 30 true]) /\
  pcs s 3 = PIdle.
Proof. eexists; split; reflexivity. Qed.

Print Assumptions C66_returned_iff_accepted.
Print Assumptions C66_alone.
Print Assumptions C66_working_server.
Print Assumptions C66_working_server_many_refuted.
Print Assumptions C66_connections_ended_refuted.
Print Assumptions C66_own_connection_refuted.
Print Assumptions C66_refused_connection_ended_refuted.
