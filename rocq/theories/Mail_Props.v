(** C65: the e-mail handler: which arguments it accepts, the letter it makes of a record, its repr. *)
From Coq Require Import ZArith.
From Verif Require Import Base Text Sig_Model Sig_Props Mail_Model.
Local Open Scope string_scope.
Local Open Scope list_scope.

(** ** What is expected *)
(** A callable that takes a record: one plain parameter without a default, and neither defaults nor stars. *)
Definition takes_record (d : pydef) : Prop := length (po d) + length (pk d) = 1 /\ pk_d d = [] /\ ko_d d = [] /\ star d = None /\ star2 d = None.
(** Callables have the signature of some definition. *)
Definition real (a : arg) : Prop := match a with AObj _ (Callable ps) => exists d, ps = params d | _ => True end.
Definition a_function (a : arg) : Prop := a = ANone \/ exists i d, a = AObj i (Callable (params d)) /\ takes_record d.
Definition a_string (a : arg) : Prop := exists s, a = AStr s.
Definition a_bool (a : arg) : Prop := exists b, a = ABool b.
Definition a_number (a : arg) : Prop := a_bool a \/ exists z, a = AInt z.
Definition acceptable (g : given) : Prop :=
  a_string (g_from g) /\ a_string (g_password g) /\ a_string (g_server g) /\ a_string (g_to g) /\ a_number (g_port g) /\
  a_function (g_text g) /\ a_function (g_subject g) /\ a_bool (g_errors g) /\ a_function (g_filter g) /\ a_function (g_alt g) /\ a_bool (g_html g).
Definition functions (g : given) : list arg := [g_text g; g_subject g; g_filter g; g_alt g].

(** The text that lists the fields: one line 'name = text' for each, in order, no line end after the last. *)
Inductive listed {V} (text_of : V -> Res string) : list (string * V) -> string -> Prop :=
| L_last k v t : text_of v = Ok t -> listed text_of [(k, v)] (k ++ " = " ++ t)
| L_more k v t x r s : text_of v = Ok t -> listed text_of (x :: r) s -> listed text_of ((k, v) :: x :: r) (k ++ " = " ++ t ++ String (ascii_of_nat 10) s).

Section C65.
  Variable isident : string -> bool.
  Hypothesis dot_no : isident "." = false.

  Lemma function_check : forall a, real a -> (none_or_handler isident a = Ok true <-> a_function a) /\
    (none_or_handler isident a = Ok true \/ none_or_handler isident a = Ok false \/ none_or_handler isident a = Err EValueError).
  Proof.
    intros [|s|b|z|i o] R; cbn [none_or_handler]; unfold a_function.
    - split; [split; auto|auto].
    - split; [split; [discriminate|intros [F|(j & d & F & _)]; discriminate]|auto].
    - split; [split; [discriminate|intros [F|(j & d & F & _)]; discriminate]|auto].
    - split; [split; [discriminate|intros [F|(j & d & F & _)]; discriminate]|auto].
    - destruct o as [| |ps]; [split; [split; [discriminate|intros [F|(j & d & F & _)]; discriminate]|auto]..|].
      destruct R as [d ->]; split.
      + rewrite (C47_handler isident dot_no d true); split.
        * intros T; right; exists i, d; split; [reflexivity|exact T].
        * intros [F|(j & d' & F & T)]; [discriminate|]; injection F as <- E.
          apply (C47_handler isident dot_no d true); rewrite E; apply (C47_handler isident dot_no d' true); exact T.
      + destruct (C47_total isident (Callable (params d)) [] _ eq_refl) as (b & _ & Q); destruct (Q true) as [[|] E]; rewrite E; auto.
  Qed.

  (** C65: the object is made exactly of acceptable arguments, which become its attributes; anything else is refused with ValueError.
      (A bool is accepted as a port.) *)
  Theorem C65_constructor : forall g, (forall a, In a (functions g) -> real a) ->
    (acceptable g -> exists s, make isident g = Ok s /\ s_from s = g_from g /\ s_password s = g_password g /\ s_server s = g_server g /\ s_to s = g_to g /\
       s_port s = g_port g /\ s_text s = g_text g /\ s_subject s = g_subject g /\ s_errors s = g_errors g /\ s_filter s = g_filter g /\ s_alt s = g_alt g /\ s_html s = g_html g) /\
    (~ acceptable g -> make isident g = Err EValueError).
  Proof.
    intros [fr pw sv to po tx sj er fi al ht] R.
    assert (F : forall a, In a [tx; sj; fi; al] -> (none_or_handler isident a = Ok true /\ a_function a) \/ (~ a_function a /\ (none_or_handler isident a = Ok false \/ none_or_handler isident a = Err EValueError))).
    { intros a I; destruct (function_check a (R a I)) as [E [T|[T|T]]]; [left; split; [exact T|apply E, T]|right..];
        (split; [intros Q; apply E in Q; rewrite T in Q; discriminate|auto]). }
    assert (S : forall a, (is_str a = true /\ a_string a) \/ (is_str a = false /\ ~ a_string a))
      by (intros [|s|b|z|i o]; [right|left|right..]; (split; [reflexivity|try (exists s; reflexivity); try (intros [? Q]; discriminate)])).
    assert (B : forall a, (is_bool a = true /\ a_bool a) \/ (is_bool a = false /\ ~ a_bool a))
      by (intros [|s|b|z|i o]; [right|right|left|right..]; (split; [reflexivity|try (exists b; reflexivity); try (intros [? Q]; discriminate)])).
    assert (N : forall a, (is_int a = true /\ a_number a) \/ (is_int a = false /\ ~ a_number a)).
    { intros [|s|b|z|i o]; [right|right|left|left|right]; (split; [reflexivity|]); try (intros [[? Q]|[? Q]]; discriminate); [left; exists b|right; exists z]; reflexivity. }
    unfold make, acceptable; cbn -[is_str is_bool is_int none_or_handler].
    destruct (B er) as [[E1 P1]|[E1 P1]]; rewrite E1; cbn -[is_str is_bool is_int none_or_handler]; [|split; [tauto|reflexivity]].
    destruct (F fi) as [[E2 P2]|[P2 [E2|E2]]]; [cbn; auto| | |]; rewrite E2; cbn -[is_str is_bool is_int none_or_handler]; [|split; [tauto|reflexivity]..].
    destruct (F al) as [[E3 P3]|[P3 [E3|E3]]]; [cbn; auto 6| | |]; rewrite E3; cbn -[is_str is_bool is_int none_or_handler]; [|split; [tauto|reflexivity]..].
    destruct (S fr) as [[E4 P4]|[E4 P4]]; rewrite E4; cbn -[is_str is_bool is_int none_or_handler]; [|split; [tauto|reflexivity]].
    destruct (S pw) as [[E5 P5]|[E5 P5]]; rewrite E5; cbn -[is_str is_bool is_int none_or_handler]; [|split; [tauto|reflexivity]].
    destruct (S to) as [[E6 P6]|[E6 P6]]; rewrite E6; cbn -[is_str is_bool is_int none_or_handler]; [|split; [tauto|reflexivity]].
    destruct (N po) as [[E7 P7]|[E7 P7]]; rewrite E7; cbn -[is_str is_bool is_int none_or_handler]; [|split; [tauto|reflexivity]].
    destruct (S sv) as [[E8 P8]|[E8 P8]]; rewrite E8; cbn -[is_str is_bool is_int none_or_handler]; [|split; [tauto|reflexivity]].
    destruct (F tx) as [[E9 P9]|[P9 [E9|E9]]]; [cbn; auto 6| | |]; rewrite E9; cbn -[is_str is_bool is_int none_or_handler]; [|split; [tauto|reflexivity]..].
    destruct (F sj) as [[Ea Pa]|[Pa [Ea|Ea]]]; [cbn; auto 6| | |]; rewrite Ea; cbn -[is_str is_bool is_int none_or_handler]; [|split; [tauto|reflexivity]..].
    destruct (B ht) as [[Eb Pb]|[Eb Pb]]; rewrite Eb; cbn -[is_str is_bool is_int none_or_handler]; [|split; [tauto|reflexivity]].
    split; [intros _; eexists; split; [reflexivity|cbn; repeat split]|intros Q; exfalso; apply Q; repeat split; assumption].
  Qed.

  (** C65: repr() says nothing about the password: it is the same for every password. *)
  Theorem C65_repr_hides_password : forall show g p q s1 s2,
    let with_password p := mkGiven (g_from g) p (g_server g) (g_to g) (g_port g) (g_text g) (g_subject g) (g_errors g) (g_filter g) (g_alt g) (g_html g) in
    make isident (with_password p) = Ok s1 -> make isident (with_password q) = Ok s2 -> repr show s1 = repr show s2.
  Proof.
    intros show g p q s1 s2 wp; unfold wp, make; cbn [g_from g_password g_server g_to g_port g_text g_subject g_errors g_filter g_alt g_html].
    repeat match goal with |- context [bindR ?x _] => destruct x; cbn [bindR]; try discriminate end.
    intros E1 E2; injection E1 as <-; injection E2 as <-; reflexivity.
  Qed.
End C65.

(** C65: but repr does not tell all: handlers that send different letters or of different records look alike. *)
Theorem C65_repr_tells_all_refuted : ~ (forall isident show g h s t,
  make isident g = Ok s -> make isident h = Ok t -> g_password g = g_password h -> repr show s = repr show t -> g = h).
Proof.
  intros H; specialize (H (fun _ => false) (fun _ => "x")
    (mkGiven (AStr "a") (AStr "b") (AStr "c") (AStr "d") (AInt 465) ANone ANone (ABool false) ANone ANone (ABool false))
    (mkGiven (AStr "a") (AStr "b") (AStr "c") (AStr "d") (AInt 465) ANone ANone (ABool true) ANone ANone (ABool true))
    _ _ eq_refl eq_refl eq_refl eq_refl); discriminate.
Qed.

Section Letters.
  Variable V W : Type.
  Variable truthy is_none : V -> bool.
  Variable text_of : V -> Res string.
  Variable run : nat -> W -> list (string * V) -> W * Res made.
  Variable bad_text : exn.
  Local Notation log := (list (string * V)).
  Local Notation content := (get_content V truthy is_none text_of W run bad_text).

  Lemma elements_listed : forall l e, elements V text_of l = Ok e -> match l with [] => e = [] | _ => listed text_of l (join newline e) /\ join newline e <> "" end.
  Proof.
    induction l as [|[k v] r IH]; intros e E; cbn [elements] in E; [congruence|].
    destruct (text_of v) as [t|x] eqn:T; cbn [bindR] in E; [|discriminate].
    destruct (elements V text_of r) as [er|x] eqn:Er; cbn [bindR] in E; [|discriminate]; apply (f_equal (fun r => match r with Ok e => e | Err _ => [] end)) in E; subst e.
    assert (NE : forall s, (k ++ " = " ++ s)%string <> "") by (intros s; destruct k; discriminate).
    specialize (IH er eq_refl); destruct r as [|y r].
    - subst er; cbn; split; [apply L_last, T|apply NE].
    - destruct IH as [L _]; assert (X : exists z zs, er = z :: zs).
      { cbn in Er; destruct y as [k2 v2]; destruct (text_of v2); [|discriminate]; cbn in Er; destruct (elements V text_of r); [|discriminate]; cbn in Er; injection Er as <-; eauto. }
      destruct X as (z & zs & ->).
      assert (J : join newline ((k ++ " = " ++ t)%string :: z :: zs) = (k ++ " = " ++ t ++ String (ascii_of_nat 10) (join newline (z :: zs)))%string).
      { change (join newline ((k ++ " = " ++ t)%string :: z :: zs)) with ((k ++ " = " ++ t) ++ (newline ++ join newline (z :: zs)))%string.
        assert (AA : forall a b c : string, ((a ++ b) ++ c = a ++ (b ++ c))%string) by (induction a as [|ch a IHa]; intros; cbn; [reflexivity|rewrite IHa; reflexivity]).
        rewrite !AA; reflexivity. }
      rewrite J; split; [apply L_more; assumption|apply NE].
  Qed.
  Lemma elements_fail : forall l, (exists e, elements V text_of l = Ok e) \/
    exists a k v b x, l = a ++ (k, v) :: b /\ text_of v = Err x /\ (forall y, In y a -> is_ok (text_of (snd y)) = true) /\ elements V text_of l = Err x.
  Proof.
    induction l as [|[k v] r IH]; cbn; [left; eauto|].
    destruct (text_of v) as [t|x] eqn:T; cbn.
    - destruct IH as [[e ->]|(a & k2 & v2 & b & x & -> & T2 & Q & ->)]; [left; cbn; eauto|right].
      exists ((k, v) :: a), k2, v2, b, x; split; [reflexivity|split; [exact T2|split; [|reflexivity]]]; intros y [<-|Y]; [cbn; rewrite T; reflexivity|auto].
    - right; exists [], k, v, r, x; repeat split; auto; intros y [].
  Qed.

  (** C65: without a text_assembler the text of a letter lists all the fields of the record in order; it says so if there are none; and the
      letter is not made exactly if a value has no text. *)
  Theorem C65_text : forall s w l, s_text s = ANone -> s_subject s = ANone ->
    match l with
    | [] => exists x, content s w l = (w, Ok x) /\ l_text x = "Empty message from the Polog."
    | _ => (forall y, In y l -> is_ok (text_of (snd y)) = true) /\ (exists x t, content s w l = (w, Ok x) /\ listed text_of l t /\
              l_text x = ("Message from the Polog:" ++ String (ascii_of_nat 10) (String (ascii_of_nat 10) t))%string) \/
           (exists a k v b e, l = a ++ (k, v) :: b /\ text_of v = Err e /\ content s w l = (w, Err e))
    end.
  Proof.
    intros s w l T S; unfold get_content, get_text, get_subject, get_standart_text; rewrite T, S; cbn [callable].
    destruct l as [|y r] eqn:L; [eexists; split; reflexivity|]; rewrite <- L.
    destruct (elements_fail l) as [[e E]|(a & k & v & b & x & E1 & E2 & E3 & E4)].
    - left; split.
      + clear -E; revert e E; induction l as [|[k v] r IH]; intros e E z; [intros []|]; cbn in E; destruct (text_of v) as [t|] eqn:T; cbn in E; [|discriminate].
        destruct (elements V text_of r) as [er|] eqn:Er; [|discriminate]; intros [<-|Z]; [cbn; rewrite T; reflexivity|eapply IH; eauto].
      + pose proof (elements_listed l e E) as Q; rewrite L in Q; rewrite <- L in Q; destruct Q as [Q1 Q2].
        rewrite E; cbn [bindR]; destruct (String.eqb_spec (join newline e) ""); [contradiction|]; eexists _, _; split; [reflexivity|split; [exact Q1|reflexivity]].
    - right; exists a, k, v, b, x; rewrite E4; auto.
  Qed.

  (** C65: without a subject_assembler the subject tells the success of the record; addresses and the kind of the text are those of the handler. *)
  Theorem C65_subject : forall s w l x w1, s_subject s = ANone -> content s w l = (w1, Ok x) ->
    l_from x = s_from s /\ l_to x = s_to s /\ (forall b, s_html s = ABool b -> l_html x = b) /\
    l_subject x = MText (match dget String.eqb l "success" with
                         | None => "Message from the Polog"
                         | Some v => if truthy v then "Success message from the Polog" else if is_none v then "Message from the Polog" else "Error message from the Polog"
                         end).
  Proof.
    intros s w l x w1 S; unfold get_content, get_subject; rewrite S; cbn [callable].
    destruct (get_text V text_of W run s w l) as [w2 [[t|i]|e]]; [|discriminate..]; intros E; injection E as <- <-; cbn.
    repeat split; intros b ->; reflexivity.
  Qed.

  (** C65: a text_assembler is called once, with the record, and what it returns is the text; then the subject_assembler, if any, is called
      once with the record; an exception of either, or a text that is no text, means that there is no letter and nobody is called after. *)
  Theorem C65_assemblers : forall s w l i j ps qs, s_text s = AObj i (Callable ps) -> s_subject s = AObj j (Callable qs) ->
    content s w l = match run i w l with
                    | (w1, Err e) => (w1, Err e)
                    | (w1, Ok (MOther _)) => (w1, Err bad_text)
                    | (w1, Ok (MText t)) => match run j w1 l with
                                           | (w2, Err e) => (w2, Err e)
                                           | (w2, Ok h) => (w2, Ok (mkLetter t match s_html s with ABool b => b | _ => false end h (s_from s) (s_to s)))
                                           end
                    end.
  Proof.
    intros s w l i j ps qs T S; unfold get_content, get_text, get_subject; rewrite T, S; cbn [callable].
    destruct (run i w l) as [w1 [[t|o]|e]]; reflexivity.
  Qed.
  Theorem C65_one_assembler : forall s w l,
    (forall i ps, s_text s = AObj i (Callable ps) -> s_subject s = ANone ->
       (forall w1 t, run i w l = (w1, Ok (MText t)) -> exists x, content s w l = (w1, Ok x) /\ l_text x = t) /\
       (forall w1 e, run i w l = (w1, Err e) -> content s w l = (w1, Err e)) /\
       (forall w1 o, run i w l = (w1, Ok (MOther o)) -> content s w l = (w1, Err bad_text))) /\
    (forall j ps, s_text s = ANone -> s_subject s = AObj j (Callable ps) -> (forall y, In y l -> is_ok (text_of (snd y)) = true) ->
       (forall w1 h, run j w l = (w1, Ok h) -> exists x, content s w l = (w1, Ok x) /\ l_subject x = h) /\
       (forall w1 e, run j w l = (w1, Err e) -> content s w l = (w1, Err e))).
  Proof.
    intros s w l; split.
    - intros i ps T S; unfold get_content, get_text, get_subject; rewrite T, S; cbn [callable].
      split; [|split]; intros w1 t ->; [eexists; split; reflexivity|reflexivity|reflexivity].
    - intros j ps T S Q; unfold get_content, get_text, get_subject, get_standart_text; rewrite T, S; cbn [callable].
      destruct (elements_fail l) as [[e ->]|(a & k & v & b & x & E1 & E2 & E3 & E4)].
      + cbn [bindR]; split; intros w1 h ->; [eexists; split; reflexivity|reflexivity].
      + exfalso; specialize (Q (k, v)); rewrite E1 in Q; cbn in Q; rewrite E2 in Q; discriminate Q; apply in_or_app; right; left; reflexivity.
  Qed.
End Letters.

(** C65: the default text does not determine the record: a value that contains a line end looks like two fields. *)
Theorem C65_text_determines_refuted : ~ (forall (l m : list (string * string)) t, listed (fun s => Ok s) l t -> listed (fun s => Ok s) m t -> l = m).
Proof.
  intros H; specialize (H [("a", "1"); ("b", "2")] [("a", ("1" ++ String (ascii_of_nat 10) "b = 2")%string)] ("a = 1" ++ String (ascii_of_nat 10) "b = 2")%string).
  assert (X : [("a", "1"); ("b", "2")] = [("a", ("1" ++ String (ascii_of_nat 10) "b = 2")%string)]); [apply H|discriminate].
  - apply (L_more (fun s => Ok s) "a" "1" "1" ("b", "2") [] "b = 2" eq_refl); apply (L_last (fun s => Ok s) "b" "2" "2" eq_refl).
  - apply (L_last (fun s => Ok s) "a" _ _ eq_refl).
Qed.

(** Examples *)
Definition good : given := mkGiven (AStr "from@x.org") (AStr "secret") (AStr "smtp.x.org") (AStr "to@x.org") (AInt 465) ANone
  (AObj 7 (Callable (params (mkDef [] [] ["log"] [] None [] [] None)))) (ABool false) ANone ANone (ABool true).
Definition ident (s : string) : bool := negb (existsb (String.eqb s) ["."; "*"; "**"; ""]).
Example ex_acceptable : acceptable good.
Proof.
  unfold acceptable, good, a_string, a_bool, a_number, a_function; cbn; repeat split; eauto.
  right; exists 7, (mkDef [] [] ["log"] [] None [] [] None); split; [reflexivity|unfold takes_record; cbn; auto].
Qed.
Example ex_refused : make ident (mkGiven (AStr "a") ANone (AStr "c") (AStr "d") (AInt 465) ANone ANone (ABool false) ANone ANone (ABool false)) = Err EValueError /\
  make ident (mkGiven (AStr "a") (AStr "b") (AStr "c") (AStr "d") (AInt 465) (AObj 1 (Callable (params (mkDef [] [] ["log"] ["mode"] None [] [] None)))) ANone (ABool false) ANone ANone (ABool false)) = Err EValueError /\
  is_ok (make ident (mkGiven (AStr "a") (AStr "b") (AStr "c") (AStr "d") (ABool true) ANone ANone (ABool false) ANone ANone (ABool false))) = true.
Proof. repeat split; reflexivity. Qed.
Example ex_letter : exists s, make ident (mkGiven (AStr "a") (AStr "b") (AStr "c") (AStr "d") (AInt 465) ANone ANone (ABool false) ANone ANone (ABool false)) = Ok s /\
  get_content string (fun v => String.eqb v "True") (fun v => String.eqb v "None") (fun v => Ok v) unit (fun _ w _ => (w, Ok (MOther 0))) ETypeError s tt [("message", "hi"); ("success", "False")] =
  (tt, Ok (mkLetter ("Message from the Polog:" ++ newline ++ newline ++ "message = hi" ++ newline ++ "success = False")%string false (MText "Error message from the Polog") (AStr "a") (AStr "d"))).
Proof. eexists; split; reflexivity. Qed.

Print Assumptions C65_constructor.
Print Assumptions C65_repr_hides_password.
Print Assumptions C65_repr_tells_all_refuted.
Print Assumptions C65_text.
Print Assumptions C65_subject.
Print Assumptions C65_assemblers.
Print Assumptions C65_one_assembler.
Print Assumptions C65_text_determines_refuted.
