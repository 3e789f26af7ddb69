(** C36: the smart assert. *)
From Verif Require Import Base Assert_Model.
Local Open Scope string_scope.
Local Open Scope list_scope.

(** ** What is expected *)
Inductive truth : Type := True_ | False_ | Broken.
Definition truth_of (x : object) : truth := match o_bool x with Ok true => True_ | Ok false => False_ | Err _ => Broken end.
(** How many records, and does AssertionError leave the call. *)
Definition table (p : politic) (debug : bool) (t : truth) : nat * bool :=
  match debug, t, p with
  | _, True_, _ => (0, false)
  | false, False_, _ => (1, false)
  | false, Broken, _ => (0, false)
  | true, False_, PIfDebug => (1, true)
  | true, False_, PAll => (2, true)
  | true, Broken, _ => (1, true)
  end.
(** The text of an object: a text is its own text, anything else has the one that str() gives. *)
Definition has_text (x : object) (s : string) : Prop := o_text x = Some s \/ (o_text x = None /\ o_str x = Ok s).
Lemma as_text_spec : forall x s, as_text x = Ok s <-> has_text x s.
Proof. intros x s; unfold as_text, has_text; destruct (o_text x); split; [intros E; left; congruence|intros [E|[E _]]; congruence|auto|intros [E|[_ E]]; [discriminate|exact E]]. Qed.
(** The text of a record and of the exception: the first object that has a text. *)
Inductive says : list object -> string -> Prop :=
| S_first : forall x l s, has_text x s -> says (x :: l) s
| S_next : forall x l s, (forall t, ~ has_text x t) -> says l s -> says (x :: l) s
| S_none : says [] "It is impossible to extract data for the log.".
Lemma as_text_none : forall x e, as_text x = Err e -> forall t, ~ has_text x t.
Proof. intros x e E t H; apply as_text_spec in H; congruence. Qed.

Section AssertProps.
  Variable W : Type.
  Variable write : W -> string -> W * Res unit.
  Notation ass := (ass W write).

  Lemma says_fun : forall l s s', says l s -> says l s' -> s = s'.
  Proof.
    intros l s s' H; revert s'; induction H as [x l s X|x l s X _ IH|]; intros s' H'; inversion H' as [y l' t Y|y l' t Y Z|]; subst; auto; try (exfalso; eapply X; eassumption); try (exfalso; eapply Y; eassumption).
    apply as_text_spec in X; apply as_text_spec in Y; congruence.
  Qed.
  (** C36: the message: the argument after the expression, else the expression, else a fixed text; more than one argument raises TypeError
      in loud mode before anything is done. *)
  Theorem C36_message : forall silent x more,
    (forall s, get_message silent x more = Ok s -> says (firstn 1 more ++ [x]) s) /\
    (forall e, get_message silent x more = Err e -> e = ETypeError /\ silent = false /\ 1 < length more).
  Proof.
    intros silent x more; unfold get_message; split.
    - destruct (_ && _)%bool; [discriminate|]; intros s E; injection E as <-.
      assert (X : says [x] match as_text x with Ok s => s | Err _ => default_message end).
      { destruct (as_text x) eqn:E; [apply S_first, as_text_spec, E|apply S_next; [eapply as_text_none, E|apply S_none]]. }
      destruct more as [|m r]; cbn; [exact X|]; destruct (as_text m) eqn:E; [apply S_first, as_text_spec, E|apply S_next; [eapply as_text_none, E|exact X]].
    - destruct (Nat.ltb_spec 1 (length more)); destruct silent; cbn; try discriminate; intros e E; injection E as <-; auto.
  Qed.

  (** C36: if writing a record does not fail, the number of records and the outcome follow the table, and every record carries the message. *)
  Theorem C36_table : (forall w m, is_ok (snd (write w m)) = true) -> forall p debug silent x more w m,
    (silent = true \/ length more <= 1) -> says (firstn 1 more ++ [x]) m ->
    let '(w1, t1, r1) := ass p debug silent x more w in
    t1 = repeat m (fst (table p debug (truth_of x))) /\ r1 = if snd (table p debug (truth_of x)) then Err EAssertionError else Ok tt.
  Proof.
    intros OK p debug silent x more w m LN SY.
    assert (G : get_message silent x more = Ok m).
    { destruct (C36_message silent x more) as [H1 H2]; destruct (get_message silent x more) as [s|e].
      - f_equal; apply (says_fun (firstn 1 more ++ [x])); auto.
      - destruct (H2 e eq_refl) as (_ & -> & L); exfalso; destruct LN as [LN|LN]; [discriminate|]; apply (Nat.lt_irrefl 1), (Nat.lt_le_trans _ _ _ L LN). }
    assert (R : forall w, exists w1, record W write w m = (w1, [m], Ok tt)).
    { intros w0; unfold record; specialize (OK w0 m); destruct (write w0 m) as [w1 [[]|e]]; [eauto|discriminate]. }
    unfold Assert_Model.ass; rewrite G; unfold body, run_politic, truth_of, table.
    destruct (R w) as (w1 & R1); destruct (R w1) as (w2 & R2).
    destruct p, debug; cbn; destruct (o_bool x) as [[]|e]; cbn; rewrite ?R1; cbn; rewrite ?R2; cbn; auto.
  Qed.

  (** C36: whatever writing does: outside debug mode nothing leaves the call; a true expression writes nothing and returns in every mode;
      in debug mode a false expression never returns. *)
  Theorem C36_safe : forall p silent x more w, (silent = true \/ length more <= 1) ->
    snd (ass p false silent x more w) = Ok tt.
  Proof.
    intros p silent x more w LN; unfold Assert_Model.ass; destruct (get_message silent x more) as [m|e] eqn:G.
    - destruct (body W write p false x m w) as [[w1 t1] [[]|e]]; reflexivity.
    - apply (proj2 (C36_message silent x more)) in G; destruct G as (_ & -> & L); exfalso; destruct LN as [LN|LN]; [discriminate|]; apply (Nat.lt_irrefl 1), (Nat.lt_le_trans _ _ _ L LN).
  Qed.
  Theorem C36_true_is_silent : forall p debug silent x more w, o_bool x = Ok true -> (silent = true \/ length more <= 1) ->
    ass p debug silent x more w = (w, [], Ok tt).
  Proof.
    intros p debug silent x more w T LN; unfold Assert_Model.ass; destruct (get_message silent x more) as [m|e] eqn:G.
    - unfold body, run_politic; rewrite T; destruct p, debug; reflexivity.
    - apply (proj2 (C36_message silent x more)) in G; destruct G as (_ & -> & L); exfalso; destruct LN as [LN|LN]; [discriminate|]; apply (Nat.lt_irrefl 1), (Nat.lt_le_trans _ _ _ L LN).
  Qed.
  Theorem C36_false_raises : forall p silent x more w, o_bool x = Ok false -> exists e, snd (ass p true silent x more w) = Err e.
  Proof.
    intros p silent x more w F; unfold Assert_Model.ass; destruct (get_message silent x more) as [m|e]; [|eexists; reflexivity].
    unfold body, run_politic; rewrite F; destruct p; cbn [bindR negb].
    - destruct (record W write w m) as [[w1 t1] [u|e]]; destruct (record W write w1 m) as [[w2 t2] [u2|e2]] eqn:R; cbn; rewrite ?R; eexists; reflexivity.
    - destruct (record W write w m) as [[w1 t1] [u|e]]; cbn; eexists; reflexivity.
  Qed.
End AssertProps.

(** Not as documented ("if __debug__ everything works exactly as assert"): in debug mode it writes a record too, with the politic 'all' two. *)
Definition quiet : nat -> string -> nat * Res unit := fun w _ => (w, Ok tt).
Definition false_obj : object := mkO None (Ok "False") (Ok false).
Theorem C36_exactly_as_assert_refuted : ~ (forall p x w, snd (fst (ass nat quiet p true true x [] w)) = []).
Proof. intros H; specialize (H PIfDebug false_obj 0); discriminate H. Qed.
Theorem C36_one_record_refuted : exists p x w, ass nat quiet p true true x [] w = (w, ["False"; "False"], Err EAssertionError).
Proof. exists PAll, false_obj, 0; reflexivity. Qed.
(** An object without text and truth value: the fixed message, AssertionError in debug mode, nothing otherwise. *)
Example ex_broken : let x := mkO None (Err EValueError) (Err EValueError) in
  ass nat quiet PAll true true x [] 0 = (0, [default_message], Err EAssertionError) /\
  ass nat quiet PAll false true x [] 0 = (0, [], Ok tt) /\
  ass nat quiet PIfDebug false false x [false_obj; x] 0 = (0, [], Err ETypeError) /\
  ass nat quiet PIfDebug false true false_obj [x; x] 0 = (0, ["False"], Ok tt).
Proof. repeat split. Qed.

Print Assumptions C36_message.
Print Assumptions C36_table.
Print Assumptions C36_safe.
Print Assumptions C36_true_is_silent.
Print Assumptions C36_false_raises.
Print Assumptions C36_exactly_as_assert_refuted.
Print Assumptions C36_one_record_refuted.
