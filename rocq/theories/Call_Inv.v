(** Invariants of executions of calls. *)
From Coq Require Import Relations Lia.
From Verif Require Import Base Handle_Model Handle_Spec Handle_Proofs Supp_Model Call_Model Call_Spec Call_Proofs.
Local Open Scope string_scope.
Local Open Scope list_scope.

Section Inv.
  Variable W : cenv.

  (** The automatic fields of the record of a successful call, and of a failed one, before those of message(). *)
  Definition auto_norm (p : params) (c : cfg) (l : Z) (r : string) : fields :=
    put_opt (fset (fset (fset (fset (base W p) "success" (VBool true)) "result" (VStr r)) "time_of_work" (dur W)) "level" (VInt l))
      "service_name" (c_service c).
  Definition auto_exc (p : params) (c : cfg) (l : Z) (e : eobj) (t : string) : fields :=
    put_opt (fset (fset (fset (fset (fset (fset (fset (base W p) "exception_message" (VStr t)) "exception_type" (VStr (cname (ce W) (e_cls e))))
      "success" (VBool false)) "traceback" (VStr (tbk (ce W)))) "local_variables" (VStr (locs (ce W)))) "time_of_work" (dur W)) "level" (VInt l))
      "service_name" (c_service c).

  Lemma log_normal_cases : forall p a kw n v s s1 r, log_normal W p a kw n v s = (s1, r) ->
    (s1 = s /\ (is_off s = true \/ (exists x, r = Err x) \/ exists l, normal_level (cf s) (p_level p) l /\ (l < c_level (cf s))%Z)) \/
    (is_off s = false /\ s1 = emit (set_msg s None) (ELost n) /\ exists x, r = Err x) \/
    (is_off s = false /\ r = Ok tt /\ exists l rr iv, normal_level (cf s) (p_level p) l /\ (c_level (cf s) <= l)%Z /\ jone W v = Ok rr /\ jvars W a kw = Ok iv /\
       s1 = emit (set_msg s None) (ERec (KNorm n) (put_opt (copy_context s (auto_norm p (cf s) l rr)) "input_variables" iv))).
  Proof.
    intros p a kw n v s s1 r H; unfold log_normal in H.
    destruct (is_off s); [injection H as <- <-; left; auto|].
    destruct (match p_level p with None => _ | Some l => _ end) as [l|x] eqn:El.
    2: { injection H as <- <-; left; split; [reflexivity|right; left; eauto]. }
    assert (Nl : normal_level (cf s) (p_level p) l).
    { destruct (p_level p) as [w|]; [constructor; apply level_get_spec; exact El|injection El as <-; constructor]. }
    destruct (Z.leb_spec (c_level (cf s)) l) as [L|L].
    2: { injection H as <- <-; left; split; [reflexivity|right; right; eauto]. }
    destruct (jone W v) as [rr|x] eqn:Ej; [|injection H as <- <-; left; split; [reflexivity|right; left; eauto]].
    cbv zeta in H; destruct (jvars W a kw) as [iv|x] eqn:Ev.
    - right; right; split; [reflexivity|]; injection H as <- <-; split; [reflexivity|].
      exists l, rr, iv; split; [exact Nl|split; [exact L|split; [reflexivity|split; [reflexivity|reflexivity]]]].
    - right; left; injection H as <- <-; split; [reflexivity|split; [reflexivity|eauto]].
  Qed.

  Lemma log_exception_cases : forall p a kw n e s s1 r, log_exception W p a kw n e s = (s1, r) ->
    (s1 = s /\ r = Ok tt /\ (is_off s = true \/ (is_off s = false /\ marked s e = true /\ c_dedup (cf s) = true))) \/
    (is_off s = false /\ (marked s e = false \/ c_dedup (cf s) = false) /\ s1 = mark s e /\
       ((exists x, r = Err x) \/ (errors_level (cf s) (p_elevel p) (p_level p) < c_level (cf s))%Z /\ r = Ok tt)) \/
    (is_off s = false /\ (marked s e = false \/ c_dedup (cf s) = false) /\ r = Ok tt /\
       (c_level (cf s) <= errors_level (cf s) (p_elevel p) (p_level p))%Z /\
       exists t iv, estr (ce W) e = Ok t /\ jvars W a kw = Ok iv /\
       s1 = emit (set_msg (mark s e) None) (ERec (KExc n e)
              (put_opt (copy_context s (auto_exc p (cf s) (errors_level (cf s) (p_elevel p) (p_level p)) e t)) "input_variables" iv))).
  Proof.
    intros p a kw n e s s1 r H; unfold log_exception in H.
    destruct (is_off s); [injection H as <- <-; left; auto|].
    destruct (negb (marked s e) || negb (c_dedup (cf s))) eqn:D.
    2: { apply Bool.orb_false_iff in D; destruct D as [D1 D2]; apply Bool.negb_false_iff in D1; apply Bool.negb_false_iff in D2.
         injection H as <- <-; left; split; [reflexivity|split; [reflexivity|right; auto]]. }
    assert (D' : marked s e = false \/ c_dedup (cf s) = false).
    { apply Bool.orb_true_iff in D; destruct D as [D|D]; apply Bool.negb_true_iff in D; auto. }
    cbv zeta in H; set (l := errors_level (cf s) (p_elevel p) (p_level p)) in *.
    destruct (Z.leb_spec (c_level (cf s)) l) as [L|L].
    2: { injection H as <- <-; right; left; split; [reflexivity|split; [exact D'|split; [reflexivity|right; split; [exact L|reflexivity]]]]. }
    unfold exception_to_dict in H; destruct (estr (ce W) e) as [t|x] eqn:Es; cbn [bindR] in H.
    2: { injection H as <- <-; right; left; split; [reflexivity|split; [exact D'|split; [reflexivity|left; eexists; reflexivity]]]. }
    destruct (jvars W a kw) as [iv|x] eqn:Ev.
    2: { injection H as <- <-; right; left; split; [reflexivity|split; [exact D'|split; [reflexivity|left; eexists; reflexivity]]]. }
    injection H as <- <-; right; right.
    split; [reflexivity|split; [exact D'|split; [reflexivity|split; [exact L|]]]].
    exists t, iv; split; [reflexivity|split; [reflexivity|reflexivity]].
  Qed.

  Lemma manual_cases : forall k args kw s s1 r, manual W k args kw s = (s1, r) ->
    (s1 = s /\ forall f, handle (cf s) (ce W) true (is_off s) args kw <> Ok (Some f)) \/
    (is_off s = false /\ r = Ok tt /\ exists f, handle (cf s) (ce W) true false args kw = Ok (Some f) /\ s1 = emit s (ERec k f)).
  Proof.
    intros k args kw s s1 r H; unfold manual in H.
    destruct (handle (cf s) (ce W) true (is_off s) args kw) as [[f|]|x] eqn:E.
    - right; injection H as <- <-.
      assert (F : is_off s = false).
      { unfold handle in E; destruct (handle_fields (cf s) (ce W) true args kw) as [g|]; cbn [bindR] in E; [|discriminate].
        destruct (fget g "level") as [[]|]; try discriminate.
        destruct (c_level (cf s) <=? z)%Z; [|discriminate]; destruct (is_off s); [discriminate|reflexivity]. }
      rewrite F in E; split; [exact F|split; [reflexivity|]]; exists f; split; [exact E|reflexivity].
    - left; injection H as <- <-; split; [reflexivity|intros f Z; congruence].
    - left; injection H as <- <-; split; [reflexivity|intros f Z; congruence].
  Qed.

  (** The record of a successful call: the automatic fields, then the fields of message(), then the arguments. *)
  Inductive made (s : st) : kind -> fields -> Prop :=
  | m_norm : forall n p l r iv, (c_level (cf s) <= l)%Z -> normal_level (cf s) (p_level p) l ->
      made s (KNorm n) (put_opt (copy_context s (auto_norm p (cf s) l r)) "input_variables" iv)
  | m_exc : forall n e p t iv, (marked s e = false \/ c_dedup (cf s) = false) ->
      (c_level (cf s) <= errors_level (cf s) (p_elevel p) (p_level p))%Z -> estr (ce W) e = Ok t ->
      made s (KExc n e) (put_opt (copy_context s (auto_exc p (cf s) (errors_level (cf s) (p_elevel p) (p_level p)) e t)) "input_variables" iv)
  | m_manual : forall args kw f, handle (cf s) (ce W) true false args kw = Ok (Some f) -> made s KManual f
  | m_block : forall i args kw f, handle (cf s) (ce W) true false args kw = Ok (Some f) -> made s (KBlock i) f.

  Record shape (R : cfg -> cfg -> Prop) (s s' : st) (evs : list ev) : Prop := mkShape {
    sh_tr : tr s' = tr s ++ evs;
    sh_one : length evs <= 1;
    sh_unl : unl s' = fold_left off_step evs (unl s);
    sh_msg : msg s' = fold_left ctx_step evs (msg s);
    sh_rec : forall k f, evs = [ERec k f] -> is_off s = false /\ made s k f;
    sh_mark : forall n e f, evs = [ERec (KExc n e) f] -> In (e_id e) (marks s');
    sh_marks : incl (marks s) (marks s');
    sh_cf : cf s' = cf s \/ R (cf s) (cf s');
    sh_nmsg : forall f, evs = [EMsg f] -> exists args kw, message_fields (cf s) (ce W) args kw = Ok (Some f) }.

  Lemma act_shape : forall R s s', act W R s s' -> exists evs, shape R s s' evs.
  Proof.
    intros R s s' H; destruct H.
    - exists [EStart (ncall s)]; split; cbn; auto; try discriminate; intros x Hx; exact Hx.
    - destruct (log_normal W p a kw n v s) as [s1 r] eqn:E; cbn [fst].
      destruct (log_normal_cases p a kw n v s s1 r E) as [[-> _]|[[O [-> _]]|[O [_ [l [rr [iv [Nl [L [_ [_ ->]]]]]]]]]]].
      + exists []; split; cbn; auto; try discriminate; [rewrite app_nil_r; reflexivity|intros x Hx; exact Hx].
      + exists [ELost n]; split; cbn; auto; try discriminate; intros x Hx; exact Hx.
      + eexists [_]; split; cbn; auto; try discriminate; [|intros x Hx; exact Hx].
        intros k f Z; injection Z as <- <-; split; [exact O|constructor; assumption].
    - destruct (log_exception W p a kw n e s) as [s1 r] eqn:E; cbn [fst].
      destruct (log_exception_cases p a kw n e s s1 r E) as [[-> _]|[[O [D [-> _]]]|[O [D [_ [L [t [iv [Es [_ ->]]]]]]]]]].
      + exists []; split; cbn; auto; try discriminate; [rewrite app_nil_r; reflexivity|intros x Hx; exact Hx].
      + exists []; split; cbn; auto; try discriminate; [rewrite app_nil_r; reflexivity|intros x Hx; right; exact Hx].
      + eexists [_]; split; cbn; auto; try discriminate.
        * intros k f Z; injection Z as <- <-; split; [exact O|apply m_exc; assumption].
        * intros n0 e0 f Z; injection Z as _ <- _; left; reflexivity.
        * intros x Hx; right; exact Hx.
    - exists [EEnd n o]; split; cbn; auto; try discriminate; intros x Hx; exact Hx.
    - exists [EOff f]; split; cbn; auto; try discriminate; intros x Hx; exact Hx.
    - exists [EOn]; split; cbn; auto; try discriminate; intros x Hx; exact Hx.
    - exists [EMsg f]; split; cbn; auto; try discriminate; [intros x Hx; exact Hx|].
      intros f0 Z; injection Z as <-; eauto.
    - exists []; split; cbn; auto; try discriminate; [rewrite app_nil_r; reflexivity|intros x Hx; exact Hx].
    - exists []; split; cbn; auto; try discriminate; [rewrite app_nil_r; reflexivity|intros x Hx; exact Hx].
    - exists []; split; cbn; auto; try discriminate; [rewrite app_nil_r; reflexivity|intros x Hx; exact Hx].
    - exists []; split; cbn; auto; try discriminate; [rewrite app_nil_r; reflexivity|intros x Hx; exact Hx].
    - destruct (manual W KManual args kw s) as [s1 r] eqn:E; cbn [fst].
      destruct (manual_cases _ _ _ _ _ _ E) as [[-> _]|[O [_ [f [Hf ->]]]]].
      + exists []; split; cbn; auto; try discriminate; [rewrite app_nil_r; reflexivity|intros x Hx; exact Hx].
      + exists [ERec KManual f]; split; cbn; auto; try discriminate; [|intros x Hx; exact Hx].
        intros k f0 Z; injection Z as <- <-; split; [exact O|econstructor; exact Hf].
    - destruct (manual W (KBlock i) args kw s) as [s1 r] eqn:E; cbn [fst].
      destruct (manual_cases _ _ _ _ _ _ E) as [[-> _]|[O [_ [f [Hf ->]]]]].
      + exists []; split; cbn; auto; try discriminate; [rewrite app_nil_r; reflexivity|intros x Hx; exact Hx].
      + exists [ERec (KBlock i) f]; split; cbn; auto; try discriminate; [|intros x Hx; exact Hx].
        intros k f0 Z; injection Z as <- <-; split; [exact O|econstructor; exact Hf].
  Qed.

  Lemma snoc_split : forall (l : list ev) x a y b, l ++ [x] = a ++ y :: b ->
    (b = [] /\ a = l /\ y = x) \/ (exists b', b = b' ++ [x] /\ l = a ++ y :: b').
  Proof.
    intros l x a y b H; destruct b as [|z b'] using rev_ind.
    - left; apply app_inj_tail in H; destruct H as [-> ->]; auto.
    - right; exists b'; rewrite app_comm_cons, app_assoc in H; apply app_inj_tail in H; destruct H as [-> ->]; auto.
  Qed.

  (** What an execution has added to the events, with the state of every record's moment. *)
  Record grown (R : cfg -> cfg -> Prop) (s0 s : st) (new : list ev) : Prop := mkGrown {
    g_tr : tr s = tr s0 ++ new;
    g_unl : unl s = fold_left off_step new (unl s0);
    g_msg : msg s = fold_left ctx_step new (msg s0);
    g_cf : clos_refl_trans_1n cfg R (cf s0) (cf s);
    g_marks : incl (marks s0) (marks s);
    g_rec : forall a k f b, new = a ++ ERec k f :: b -> exists x, made x k f /\ is_off x = false /\
      unl x = fold_left off_step a (unl s0) /\ msg x = fold_left ctx_step a (msg s0) /\ clos_refl_trans_1n cfg R (cf s0) (cf x) /\
      incl (marks s0) (marks x) /\ (forall n e g, In (ERec (KExc n e) g) a -> In (e_id e) (marks x));
    g_mark : forall n e f, In (ERec (KExc n e) f) new -> In (e_id e) (marks s);
    g_nmsg : forall f, In (EMsg f) new -> exists x args kw, message_fields (cf x) (ce W) args kw = Ok (Some f) }.

  Lemma acts_grown : forall R s0 s, acts W R s0 s -> exists new, grown R s0 s new.
  Proof.
    intros R s0 s H; apply (acts_inv W R (fun s => exists new, grown R s0 s new)) with (s := s0); [|exact H|].
    2: { exists []; split; cbn; try tauto; auto; [rewrite app_nil_r; reflexivity|constructor|intros x Hx; exact Hx|intros a k f b Z; destruct a; discriminate]. }
    clear s H; intros s s' A [new G].
    destruct (act_shape R s s' A) as [evs S].
    destruct S as [S1 S2 S3 S4 S5 S6 S7 S8 S9]; destruct G as [G1 G2 G3 G4 G5 G6 G7 G8].
    assert (Cf : clos_refl_trans_1n cfg R (cf s0) (cf s')).
    { destruct S8 as [->|S8]; [exact G4|].
      apply clos_rt_rt1n; eapply rt_trans; [apply clos_rt1n_rt; exact G4|apply rt_step; exact S8]. }
    exists (new ++ evs); split.
    - rewrite S1, G1, app_assoc; reflexivity.
    - rewrite S3, G2, fold_left_app; reflexivity.
    - rewrite S4, G3, fold_left_app; reflexivity.
    - exact Cf.
    - intros x Hx; apply S7; apply G5; exact Hx.
    - intros a k f b Z; destruct evs as [|x [|y r]]; [rewrite app_nil_r in Z; exact (G6 a k f b Z)| |cbn in S2; lia].
      apply snoc_split in Z; destruct Z as [[-> [-> E]]|[b' [-> Z]]]; [|exact (G6 a k f b' Z)].
      subst x; destruct (S5 k f eq_refl) as [O M].
      exists s; split; [exact M|split; [exact O|split; [exact G2|split; [exact G3|split; [exact G4|split; [exact G5|]]]]]].
      intros n e g Hin; exact (G7 n e g Hin).
    - intros n e f Hin; apply in_app_iff in Hin; destruct Hin as [Hin|Hin]; [apply S7; exact (G7 _ _ _ Hin)|].
      destruct evs as [|x [|y r]]; [destruct Hin| |cbn in S2; lia].
      destruct Hin as [->|[]]; exact (S6 n e f eq_refl).
    - intros f Hin; apply in_app_iff in Hin; destruct Hin as [Hin|Hin]; [exact (G8 f Hin)|].
      destruct evs as [|x [|y r]]; [destruct Hin| |cbn in S2; lia].
      destruct Hin as [->|[]]; destruct (S9 f eq_refl) as [args [kw E]]; exists s, args, kw; exact E.
  Qed.

  Lemma exec_grown : forall R q, confs R q -> forall s s' o, exec W q s = (s', o) -> exists new, grown R s s' new.
  Proof. intros R q C s s' o H; apply acts_grown; exact (exec_acts W R q C s s' o H). Qed.
End Inv.
