(** C56: decorators of classes act on each method as the corresponding decoration of that method alone. *)
From Verif Require Import Base Deco_Model Deco_Spec Deco_Proofs DecoClass_Model DecoClass_Spec DecoClass_Proofs.
Local Open Scope string_scope.
Local Open Scope list_scope.

Section Props.
  Context {P : Type}.

  (** For every class body (names with data or with functions under any decorators of their own), made after any program,
      and every sequence of class decorators that name only functions of the class: the decorating succeeds, the data is
      left alone, and every function has the layers it would have if the decorations that the class decorators add to it
      had been applied to it alone. *)
  Theorem C56_class_decorators : forall os (defs : list (string * option (list (deco P)))) cops,
    let '(g, c) := class_body (run os (@empty P)) defs in
    NoDup (map fst defs) ->
    (forall ms p m, In (CLog ms p) cops -> In m ms -> exists ds, In (m, Some ds) defs) ->
    exists g' c', capplies (g, c) cops = Ok (g', c') /\
      (forall n, In (n, None) defs -> getattr c' n = Some AData) /\
      (forall n ds extra, In (n, Some ds) defs -> adds_list n cops extra ->
         exists x, getattr c' n = Some (AFun x) /\ layers g' x = stacked (ds ++ extra)).
  Proof.
    intros os defs cops.
    destruct (class_body (run os empty) defs) as [g c] eqn:E; intros N H.
    assert (W : WF (run os (@empty P))) by (apply run_WF; apply WF_empty).
    assert (B : Bnd (run os (@empty P))) by (apply Bnd_run; [apply WF_empty|split; discriminate]).
    pose proof (class_body_ok defs (run os empty) W B N) as C; rewrite E in C.
    destruct C as [Wg [Bg [Nm [Sh [F [I _]]]]]].
    assert (Get : forall n o, In (n, o) defs -> dget String.eqb defs n = Some o).
    { intros n o Hn; apply (In_dget _ String.eqb_spec); [exact N|exact Hn]. }
    destruct (capplies_ok cops g c F _ I) as [g' [c' [E' [I' S']]]].
    { apply Forall_forall; intros [ms p|b] Ho; [|exact Logic.I]; intros m Hm.
      destruct (H ms p m Ho Hm) as [ds Hds]; rewrite Sh, (Get _ _ Hds); reflexivity. }
    exists g', c'; split; [exact E'|split].
    - intros n Hn; pose proof (S' n) as Z; rewrite Sh, (Get _ _ Hn) in Z; cbn in Z; unfold shape in Z.
      destruct (getattr c' n) as [[x|]|]; try discriminate; reflexivity.
    - intros n ds extra Hn Ha; pose proof (S' n) as Z; rewrite Sh, (Get _ _ Hn) in Z; cbn in Z.
      destruct (shape_fun c' n Z) as [x Hx]; exists x; split; [exact Hx|].
      pose proof (ci_good _ _ _ _ I' n x Hx) as G; destruct (Good_facts _ _ _ _ G) as [_ [_ [_ L]]]; rewrite L.
      unfold Vd; rewrite (Get _ _ Hn), <- nexts_app, <- stacked_nexts; f_equal; f_equal.
      clear - Ha; induction Ha as [|o os ds' ds2 Hd Hl IH]; [reflexivity|]; cbn [map concat]; rewrite IH, (adds_fun n o ds' Hd); reflexivity.
  Qed.

  Lemma repeat_logging : forall (p : P) k, Forall logging (repeat (DMeth p) k).
  Proof. intros p k; induction k; cbn; constructor; auto; exact Logic.I. Qed.

  (** C56: under one @log on the class, an undecorated method whose name has no double underscore at its ends gets exactly
      the parameters of the class decorator, an explicitly logged one keeps its own, an unlogged one stays unlogged, and a
      method with a double underscore at either end keeps what it had. *)
  Theorem C56_one_class_decorator : forall os (defs : list (string * option (list (deco P)))) p,
    let '(g, c) := class_body (run os (@empty P)) defs in
    NoDup (map fst defs) ->
    exists g' c', clog g c [] p = Ok (g', c') /\
      (forall n ds x, In (n, Some ds) defs -> getattr c' n = Some (AFun x) ->
         (~ dunder_start n -> ~ dunder_end n -> ds = [] -> layers g' x = [LLog p]) /\
         (forall a q b, ds = a ++ DLog q :: b -> Forall logging a -> Forall by_class b -> layers g' x = [LLog q]) /\
         (Exists unlogging ds -> Forall (fun l => ~ log_layer l) (layers g' x)) /\
         (dunder_start n \/ dunder_end n -> layers g' x = stacked ds)).
  Proof.
    intros os defs p.
    pose proof (C56_class_decorators os defs [CLog [] p]) as T.
    destruct (class_body (run os empty) defs) as [g c]; intros N.
    destruct (T N) as [g' [c' [E [_ L]]]].
    { intros ms q m [H|[]] Hm; injection H as <- _; destruct Hm. }
    cbn [capplies capply fst snd] in E; destruct (clog g c [] p) as [[g2 c2]|e] eqn:E2; [|discriminate].
    cbn [bindR] in E; injection E as -> ->.
    exists g', c'; split; [reflexivity|].
    intros n ds x Hn Hx.
    assert (X : forall ex, adds n (CLog [] p) ex -> layers g' x = stacked (ds ++ ex)).
    { intros ex Ha; destruct (L n ds (ex ++ []) Hn (al_cons n _ _ _ _ Ha (al_nil n))) as [y [Hy Ly]].
      rewrite app_nil_r in Ly; congruence. }
    assert (Cases : (~ dunder_start n /\ ~ dunder_end n) \/ (dunder_start n \/ dunder_end n)).
    { destruct (starts_with "__" n) eqn:S1; [right; left; apply starts_iff; exact S1|].
      destruct (ends_with "__" n) eqn:S2; [right; right; apply ends_iff; exact S2|].
      left; split; intros Z; [apply starts_iff in Z|apply ends_iff in Z]; congruence. }
    assert (Some_ex : exists ex, adds n (CLog [] p) ex /\ Forall by_class ex).
    { destruct Cases as [[A B]|A].
      - exists [DMeth p]; split; [constructor; assumption|repeat constructor].
      - exists []; split; [apply adds_all_dunder; exact A|constructor]. }
    destruct Some_ex as [ex [Hex Cex]].
    repeat split.
    - intros A B ->; rewrite (X [DMeth p]) by (constructor; assumption); reflexivity.
    - intros a q b -> Ha Hb; rewrite (X ex Hex), stacked_nexts.
      rewrite <- app_assoc; cbn [app]; rewrite nexts_app.
      assert (Keep : forall l r, Forall by_class l -> nexts (false, false, [LLog r]) l = (false, false, [@LLog P r])).
      { induction l as [|d l IH]; intros r Hl; [reflexivity|]; inversion Hl as [|? ? Hd Hr]; subst; cbn [nexts].
        destruct d; try contradiction; cbn [nextv]; apply IH; exact Hr. }
      assert (St : a = [] \/ exists mt r, nexts (false, false, []) a = (false, mt, [LLog r])).
      { clear - Ha; induction a as [|d a IH] using rev_ind; [left; reflexivity|right].
        apply Forall_app in Ha; destruct Ha as [Ha Hd]; inversion Hd as [|? ? Hd1 _]; subst.
        rewrite nexts_app; destruct (IH Ha) as [->|[mt [r Er]]].
        - destruct d; try contradiction; cbn; eauto.
        - rewrite Er; destruct d; try contradiction; cbn [nexts nextv]; [eauto|]; destruct mt; eauto. }
      unfold start; destruct St as [->|[mt [r Er]]].
      + cbn [nexts nextv]; rewrite Keep; [reflexivity|apply Forall_app; auto].
      + rewrite Er; cbn [nexts nextv]; rewrite Keep; [reflexivity|apply Forall_app; auto].
    - intros U; rewrite (X ex Hex), stacked_nexts.
      assert (Fb : forall l mt ls, Forall (fun y => ~ @log_layer P y) ls -> Forall (fun y => ~ log_layer y) (snd (nexts (true, mt, ls) l))).
      { induction l as [|d l IH]; intros mt ls H; [exact H|]; cbn [nexts].
        destruct d; cbn [nextv]; apply IH; repeat constructor; cbn; tauto. }
      assert (Un : forall l v, Exists (@unlogging P) l -> Forall (fun y => ~ @log_layer P y) (snd (nexts v l))).
      { induction l as [|d l IH]; intros [[fb mt] ls] H; [inversion H|]; cbn [nexts].
        inversion H as [? ? Hd|? ? Hr]; subst; [|apply IH; exact Hr].
        destruct d; try contradiction; cbn [nextv]; apply Fb; repeat constructor; cbn; tauto. }
      apply Un; apply Exists_app; left; exact U.
    - intros A; rewrite (X []) by (apply adds_all_dunder; exact A); rewrite app_nil_r; reflexivity.
  Qed.

  Lemma each_bad : forall names (g : reg P) c d m, In m names -> (forall x, getattr c m <> Some (AFun x)) ->
    exists e, each g c names d = Err e /\ (e = EAttributeError \/ e = ETypeError).
  Proof.
    induction names as [|n r IH]; intros g c d m H N; [destruct H|]; cbn [each].
    destruct (String.string_dec n m) as [->|Nm].
    - destruct (getattr c m) as [[x|]|]; [exfalso; apply (N x); reflexivity|eauto|eauto].
    - destruct H as [H|H]; [congruence|].
      destruct (getattr c n) as [[x|]|]; [|eauto|eauto].
      destruct (apply g x d) as [g' x']; apply (IH g' _ d m H).
      intros y; rewrite getattr_setattr; destruct (String.eqb_spec m n); [congruence|apply N].
  Qed.

  (** C56: a listed name that is not a function of the class makes the decorating fail, with AttributeError if the class
      has everything listed except names it does not know at all. *)
  Theorem C56_bad_name_fails : forall (g : reg P) c ms p m, In m ms -> (forall x, getattr c m <> Some (AFun x)) ->
    exists e, clog g c ms p = Err e /\ (e = EAttributeError \/ e = ETypeError).
  Proof.
    intros g c ms p m H N; unfold clog; destruct ms as [|m0 r]; [destruct H|].
    destruct (each_bad (m0 :: r) g c (DMeth p) m H N) as [e [-> E]]; cbn [bindR]; eauto.
  Qed.
  Theorem C56_missing_name_AttributeError : forall (g : reg P) c ms p m, In m ms -> getattr c m = None ->
    (forall n, In n ms -> getattr c n <> Some AData) -> clog g c ms p = Err EAttributeError.
  Proof.
    intros g c ms p m H Nm Nd; unfold clog; destruct ms as [|m0 r]; [destruct H|].
    assert (G : forall names g c, In m names -> getattr c m = None -> (forall n, In n names -> getattr c n <> Some AData) ->
      each g c names (DMeth p) = Err EAttributeError).
    { clear; induction names as [|n r IH]; intros g c H Nm Nd; [destruct H|]; cbn [each].
      destruct (getattr c n) as [[x|]|] eqn:E; [|exfalso; apply (Nd n); [left; reflexivity|exact E]|reflexivity].
      destruct H as [H|H]; [congruence|].
      destruct (apply g x (DMeth p)) as [g' x']; apply IH; [exact H| |].
      - rewrite getattr_setattr; destruct (String.eqb_spec m n); [congruence|exact Nm].
      - intros k Hk; rewrite getattr_setattr; destruct (String.eqb_spec k n); [discriminate|apply Nd; right; exact Hk]. }
    rewrite (G (m0 :: r) g c H Nm Nd); reflexivity.
  Qed.

  (** C56: a class given among the names (methods=(SomeClass,)) takes every layer from every method without double underscores, also the layers that the
      method was given explicitly; the others keep theirs. *)
  Theorem C56_class_in_methods : forall os (defs : list (string * option (list (deco P)))) p,
    let '(g, c) := class_body (run os (@empty P)) defs in
    NoDup (map fst defs) ->
    exists g' c', clog_class g c p = Ok (g', c') /\
      (forall n, In (n, None) defs -> getattr c' n = Some AData) /\
      (forall n ds, In (n, Some ds) defs -> exists x, getattr c' n = Some (AFun x) /\
         (~ dunder_start n -> ~ dunder_end n -> layers g' x = []) /\ (dunder_start n \/ dunder_end n -> layers g' x = stacked ds)).
  Proof.
    intros os defs p. destruct (class_body (run os empty) defs) as [g c] eqn:E; intros N.
    assert (W : WF (run os (@empty P))) by (apply run_WF; apply WF_empty).
    assert (B : Bnd (run os (@empty P))) by (apply Bnd_run; [apply WF_empty|split; discriminate]).
    pose proof (class_body_ok defs (run os empty) W B N) as C; rewrite E in C. destruct C as [Wg [Bg [Nm [Sh [F [I _]]]]]].
    assert (Get : forall n o, In (n, o) defs -> dget String.eqb defs n = Some o) by (intros n o Hn; apply (In_dget _ String.eqb_spec); [exact N|exact Hn]).
    assert (Nc : NoDup (map fst c)) by (rewrite Nm; exact N).
    destruct (each_ok (logging_methods c) g c (DMeth p) F _ I (fun n => logging_shape c n Nc)) as [g1 [c1 [E1 [I1 [N1 S1]]]]].
    assert (Nc1 : NoDup (map fst c1)) by (rewrite N1; exact Nc).
    destruct (each_ok (logging_methods c1) g1 c1 DOrig F _ I1 (fun n => logging_shape c1 n Nc1)) as [g2 [c2 [E2 [I2 [N2 S2]]]]].
    exists g2, c2. split; [unfold clog_class; rewrite E1; exact E2|]. split.
    - intros n Hn; pose proof (S2 n) as Z; rewrite S1, Sh, (Get _ _ Hn) in Z; cbn in Z; unfold shape in Z. destruct (getattr c2 n) as [[x|]|]; try discriminate Z; reflexivity.
    - intros n ds Hn. assert (Zc : shape c n = Some true) by (rewrite Sh, (Get _ _ Hn); reflexivity).
      assert (Z1 : shape c1 n = Some true) by (rewrite S1; exact Zc). assert (Z2 : shape c2 n = Some true) by (rewrite S2; exact Z1).
      destruct (shape_fun _ _ Zc) as [y Hy], (shape_fun _ _ Z1) as [z Hz], (shape_fun _ _ Z2) as [x Hx]. exists x. split; [exact Hx|].
      pose proof (ci_good _ _ _ _ I2 n x Hx) as G; destruct (Good_facts _ _ _ _ G) as [_ [_ [_ L]]]; cbv beta in L.
      rewrite (logging_count c n y Nc Hy), (logging_count c1 n z Nc1 Hz) in L. rewrite L. unfold Vd; rewrite (Get _ _ Hn). split.
      + intros A1 A2. rewrite (proj2 (plain_iff n) (conj A1 A2)). cbn [repeat]. destruct (nexts start ds) as [[fb mt] ls]. cbn [nexts].
        destruct (nextv fb mt ls (DMeth p)) as [[fb1 mt1] ls1]. reflexivity.
      + intros A. destruct (plain n) eqn:Pl; [apply plain_iff in Pl; tauto|]. cbn [repeat nexts]. symmetry; apply stacked_nexts.
  Qed.
End Props.

(** Examples: a class with a plain method, an explicitly logged one, an unlogged one, a dunder and a datum; then a class
    decorator that names one method. *)
Definition body : list (string * option (list (deco nat))) :=
  [("a", Some []); ("b", Some [DLog 7]); ("c", Some [DUnlog (Some true)]); ("__init__", Some []); ("end__", Some []); ("x", None)].
Definition result (cops : list (cop nat)) : list (string * option (list (layer nat))) :=
  match capplies (class_body empty body) cops with
  | Ok (g, c) => map (fun na => (fst na, match snd na with AFun x => Some (layers g x) | AData => None end)) c
  | Err _ => []
  end.
Example ex_class : result [CLog [] 5] =
  [("a", Some [LLog 5]); ("b", Some [LLog 7]); ("c", Some [LUnlog None]); ("__init__", Some []); ("end__", Some []); ("x", None)].
Proof. vm_compute; reflexivity. Qed.
Example ex_methods : result [CLog ["a"; "__init__"] 5] =
  [("a", Some [LLog 5]); ("b", Some []); ("c", Some []); ("__init__", Some [LLog 5]); ("end__", Some []); ("x", None)].
Proof. vm_compute; reflexivity. Qed.
Example ex_unlog_class : result [CLog [] 5; CUnlog None] =
  [("a", Some [LUnlog None]); ("b", Some [LUnlog None]); ("c", Some [LUnlog None]); ("__init__", Some []); ("end__", Some [LUnlog None]); ("x", None)].
Proof. vm_compute; reflexivity. Qed.

(** A name that is not there: AttributeError, after the class was partly changed. *)
Example ex_missing : capplies (class_body empty body) [CLog ["a"; "zzz"] 5] = Err EAttributeError.
Proof. vm_compute; reflexivity. Qed.

(** The explicit decorator of b is lost, too. *)
Example ex_class_in_methods : match clog_class (fst (class_body empty body)) (snd (class_body empty body)) 5 with
  | Ok (g, c) => map (fun na => (fst na, match snd na with AFun x => Some (layers g x) | AData => None end)) c
  | Err _ => []
  end = [("a", Some []); ("b", Some []); ("c", Some []); ("__init__", Some []); ("end__", Some []); ("x", None)].
Proof. vm_compute; reflexivity. Qed.

Print Assumptions C56_class_in_methods.
Print Assumptions C56_class_decorators.
Print Assumptions C56_one_class_decorator.
Print Assumptions C56_bad_name_fails.
Print Assumptions C56_missing_name_AttributeError.
