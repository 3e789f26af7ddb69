(** Common vocabulary of the models: Python exceptions as values and
    insertion-ordered dictionaries.  Nothing here is specific to one module of
    /repo; every other file builds on it. *)
From Coq Require Export String Ascii.
From Coq Require Export List Arith Bool Lia.
From Coq Require Import ZArith.
Export ListNotations.

(** Names of the Python exception classes the modelled code raises.  [ENameError]
    etc. stand for the class only; messages are not modelled (simplified). *)
Inductive exn : Type :=
| EKeyError | EValueError | ETypeError | ENameError | EAttributeError
| EIndexError | EAssertionError | ENotImplementedError | EFileNotFound
| EDoubleSetting | EAfterStartSetting          (* polog/errors.py *)
| ERewritingLog | EIncorrectUse                (* polog/errors.py *)
| EHandlerNotFound                             (* polog/errors.py, a ValueError *)
| EUser (tag : nat)                            (* anything raised by user code *)
| EOutOfFuel.                                  (* model artefact: never a Python exception *)

(** Outcome of a Python expression: a value or a raised exception. *)
Inductive Res (A : Type) : Type :=
| Ok (a : A)
| Err (e : exn).
Arguments Ok {A} a.
Arguments Err {A} e.

Definition bindR {A B} (x : Res A) (f : A -> Res B) : Res B :=
  match x with Ok a => f a | Err e => Err e end.

Definition is_ok {A} (x : Res A) : bool := match x with Ok _ => true | Err _ => false end.

Definition exn_eq_dec : forall a b : exn, {a = b} + {a <> b}.
Proof. decide equality; apply Nat.eq_dec. Defined.

(** Python's dict: association list in insertion order, keys unique.
    [dset] overwrites in place or appends; [ddel] removes. *)
Section Dict.
  Context {K V : Type}.
  Variable eqb : K -> K -> bool.

  Fixpoint dget (d : list (K * V)) (k : K) : option V :=
    match d with
    | [] => None
    | (k', v) :: r => if eqb k k' then Some v else dget r k
    end.

  Fixpoint dset (d : list (K * V)) (k : K) (v : V) : list (K * V) :=
    match d with
    | [] => [(k, v)]
    | (k', v') :: r => if eqb k k' then (k', v) :: r else (k', v') :: dset r k v
    end.

  Fixpoint ddel (d : list (K * V)) (k : K) : list (K * V) :=
    match d with
    | [] => []
    | (k', v') :: r => if eqb k k' then r else (k', v') :: ddel r k
    end.

  Definition dmem (d : list (K * V)) (k : K) : bool :=
    match dget d k with Some _ => true | None => false end.

  Definition dkeys (d : list (K * V)) : list K := map fst d.
  Definition dvals (d : list (K * V)) : list V := map snd d.

  Hypothesis eqb_spec : forall a b, reflect (a = b) (eqb a b).

  Lemma eqb_refl' : forall a, eqb a a = true.
  Proof. intros a; destruct (eqb_spec a a); congruence. Qed.

  Lemma eqb_neq' : forall a b, a <> b -> eqb a b = false.
  Proof. intros a b H; destruct (eqb_spec a b); congruence. Qed.

  Lemma dget_dset_same : forall d k v, dget (dset d k v) k = Some v.
  Proof.
    induction d as [|[k' v'] r IH]; intros k v; cbn [dset dget].
    - now rewrite eqb_refl'.
    - destruct (eqb k k') eqn:E; cbn [dget]; rewrite E; auto.
  Qed.

  Lemma dget_dset_other : forall d k k2 v, k <> k2 -> dget (dset d k v) k2 = dget d k2.
  Proof.
    induction d as [|[k' v'] r IH]; intros k k2 v Hne; cbn [dset dget].
    - rewrite eqb_neq' by congruence; reflexivity.
    - destruct (eqb_spec k k') as [->|Hk]; cbn [dget].
      + rewrite (eqb_neq' k2 k') by congruence; reflexivity.
      + destruct (eqb k2 k'); auto.
  Qed.

  Lemma dget_dset : forall d k k2 v,
    dget (dset d k v) k2 = if eqb k2 k then Some v else dget d k2.
  Proof.
    intros d k k2 v; destruct (eqb_spec k2 k) as [->|H].
    - apply dget_dset_same.
    - apply dget_dset_other; congruence.
  Qed.

  Lemma dget_In : forall d k v, dget d k = Some v -> In (k, v) d.
  Proof.
    induction d as [|[k' v'] r IH]; intros k v H; cbn [dget] in H; [discriminate|].
    destruct (eqb_spec k k') as [->|Hne].
    - injection H as ->; left; reflexivity.
    - right; apply IH; exact H.
  Qed.

  Lemma In_dget : forall d k v, NoDup (dkeys d) -> In (k, v) d -> dget d k = Some v.
  Proof.
    induction d as [|[k' v'] r IH]; intros k v Hnd Hin; [destruct Hin|].
    cbn [dkeys map fst] in Hnd; inversion Hnd as [|x l Hni Hnd']; subst.
    cbn [dget]; destruct Hin as [E|Hin].
    - injection E as -> ->; rewrite eqb_refl'; reflexivity.
    - destruct (eqb_spec k k') as [->|Hne].
      + exfalso; apply Hni; change k' with (fst (k', v)); apply in_map; exact Hin.
      + apply IH; assumption.
  Qed.

  Lemma dget_None : forall d k, dget d k = None <-> ~ In k (dkeys d).
  Proof.
    induction d as [|[k' v'] r IH]; intros k; cbn [dget dkeys map fst In].
    - tauto.
    - destruct (eqb_spec k k') as [->|Hne].
      + split; [discriminate|]; intros H; exfalso; apply H; left; reflexivity.
      + rewrite IH; unfold dkeys; split; intros H; [intros [E|E]; congruence || tauto|tauto].
  Qed.

  Lemma dmem_true : forall d k, dmem d k = true <-> In k (dkeys d).
  Proof.
    intros d k; unfold dmem; destruct (dget d k) as [v|] eqn:E.
    - split; [intros _|reflexivity].
      apply dget_In in E; change k with (fst (k, v)); apply in_map; exact E.
    - apply dget_None in E; split; [discriminate|contradiction].
  Qed.

  Lemma dmem_false : forall d k, dmem d k = false <-> ~ In k (dkeys d).
  Proof.
    intros d k; rewrite <- dmem_true; destruct (dmem d k); split; congruence.
  Qed.

  Lemma dkeys_dset : forall d k v,
    dkeys (dset d k v) = if dmem d k then dkeys d else dkeys d ++ [k].
  Proof.
    induction d as [|[k' v'] r IH]; intros k v; cbn [dset dkeys map fst app].
    - reflexivity.
    - unfold dmem; cbn [dget].
      destruct (eqb_spec k k') as [->|Hne]; cbn [map fst].
      + reflexivity.
      + unfold dkeys in IH; rewrite IH; unfold dmem; destruct (dget r k); reflexivity.
  Qed.

  Lemma NoDup_dset : forall d k v, NoDup (dkeys d) -> NoDup (dkeys (dset d k v)).
  Proof.
    intros d k v H; rewrite dkeys_dset; destruct (dmem d k) eqn:E; [exact H|].
    apply dmem_false in E.
    induction (dkeys d) as [|a l IH]; cbn [app].
    - constructor; [intros []|constructor].
    - inversion H as [|x l' Hni Hnd]; subst; constructor.
      + rewrite in_app_iff; cbn [In]; intros [Hi|[Hi|[]]]; [contradiction|].
        subst; apply E; left; reflexivity.
      + apply IH; [assumption|]; intros Hi; apply E; right; exact Hi.
  Qed.

  Lemma dget_ddel_same : forall d k, NoDup (dkeys d) -> dget (ddel d k) k = None.
  Proof.
    induction d as [|[k' v'] r IH]; intros k Hnd; cbn [ddel dget]; [reflexivity|].
    inversion Hnd as [|x l Hni Hnd']; subst.
    destruct (eqb_spec k k') as [->|Hne].
    - apply dget_None; exact Hni.
    - cbn [dget]; rewrite (eqb_neq' k k') by exact Hne; apply IH; exact Hnd'.
  Qed.

  Lemma dget_ddel_other : forall d k k2, k <> k2 -> dget (ddel d k) k2 = dget d k2.
  Proof.
    induction d as [|[k' v'] r IH]; intros k k2 Hne; cbn [ddel dget]; [reflexivity|].
    destruct (eqb_spec k k') as [->|Hk].
    - rewrite (eqb_neq' k2 k') by congruence; reflexivity.
    - cbn [dget]; rewrite IH by exact Hne; reflexivity.
  Qed.

  Lemma In_dkeys_ddel : forall d k x, In x (dkeys (ddel d k)) -> In x (dkeys d).
  Proof.
    induction d as [|[k' v'] r IH]; intros k x; cbn [ddel dkeys map fst In]; [tauto|].
    destruct (eqb k k'); cbn [map fst In]; [tauto|].
    intros [H|H]; [left; exact H|right; apply (IH k x); exact H].
  Qed.

  Lemma NoDup_ddel : forall d k, NoDup (dkeys d) -> NoDup (dkeys (ddel d k)).
  Proof.
    induction d as [|[k' v'] r IH]; intros k Hnd; cbn [ddel]; [constructor|].
    inversion Hnd as [|x l Hni Hnd']; subst.
    destruct (eqb k k'); [exact Hnd'|].
    cbn [dkeys map fst]; constructor.
    - intros Hi; apply Hni; exact (In_dkeys_ddel _ _ _ Hi).
    - apply IH; exact Hnd'.
  Qed.

  Lemma dget_app : forall d1 d2 k,
    dget (d1 ++ d2) k = match dget d1 k with Some v => Some v | None => dget d2 k end.
  Proof.
    induction d1 as [|[k' v'] r IH]; intros d2 k; cbn [app dget]; [reflexivity|].
    destruct (eqb k k'); auto.
  Qed.
End Dict.

Lemma string_eqb_spec : forall a b : string, reflect (a = b) (String.eqb a b).
Proof. exact String.eqb_spec. Qed.

Lemma nat_eqb_spec : forall a b : nat, reflect (a = b) (Nat.eqb a b).
Proof. exact Nat.eqb_spec. Qed.

(** [fold_left] over a history, used by every "after any sequence of calls" theorem. *)
Definition run {S O : Type} (step : S -> O -> S) (s : S) (ops : list O) : S := fold_left step ops s.

Lemma run_inv : forall {S O : Type} (step : S -> O -> S) (P : S -> Prop) ops s,
  P s -> (forall s o, P s -> P (step s o)) -> P (run step s ops).
Proof.
  intros S O step P ops; unfold run; induction ops as [|o ops IH]; intros s Hs Hstep; cbn [fold_left]; auto.
Qed.

Lemma run_app : forall {S O : Type} (step : S -> O -> S) a b s,
  run step s (a ++ b) = run step (run step s a) b.
Proof. intros; unfold run; apply fold_left_app. Qed.

(** Mealy-style histories: each operation produces a visible output. *)
Section Mealy.
  Context {S O R : Type}.
  Variable step : S -> O -> S * R.
  Fixpoint outputs (s : S) (ops : list O) : list R :=
    match ops with
    | [] => []
    | o :: r => let (s', x) := step s o in x :: outputs s' r
    end.
  Definition final (s : S) (ops : list O) : S := fold_left (fun s o => fst (step s o)) ops s.
End Mealy.

Lemma outputs_sim : forall {S1 S2 O R : Type} (st1 : S1 -> O -> S1 * R) (st2 : S2 -> O -> S2 * R)
    (rel : S1 -> S2 -> Prop),
  (forall a b o, rel a b -> rel (fst (st1 a o)) (fst (st2 b o)) /\ snd (st1 a o) = snd (st2 b o)) ->
  forall ops a b, rel a b -> outputs st1 a ops = outputs st2 b ops /\ rel (final st1 a ops) (final st2 b ops).
Proof.
  intros S1 S2 O R st1 st2 rel Hstep ops; induction ops as [|o ops IH]; intros a b Hrel; cbn [outputs].
  - split; [reflexivity|exact Hrel].
  - destruct (Hstep a b o Hrel) as [H1 H2].
    unfold final; cbn [fold_left].
    destruct (st1 a o) as [a' x], (st2 b o) as [b' y]; cbn [fst snd] in *; subst.
    destruct (IH a' b' H1) as [H3 H4]; split; [rewrite H3; reflexivity|exact H4].
Qed.
