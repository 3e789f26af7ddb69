(** Lemmas about calls. *)
From Coq Require Import Relations Lia.
From Verif Require Import Base Handle_Model Handle_Spec Handle_Proofs Supp_Model Call_Model Call_Spec.
Local Open Scope string_scope.
Local Open Scope list_scope.

(** Levels. *)
Lemma level_get_spec : forall c v z, level_get c v = Ok z <-> level_number c v z.
Proof.
  intros c v z; split.
  - destruct v; cbn [level_get]; try discriminate.
    + destruct (Z.ltb_spec z0 0); [discriminate|]; intros E; injection E as ->; constructor; lia.
    + destruct (dget String.eqb (c_levels c) s) eqn:E; [|discriminate]; intros Z; injection Z as ->; constructor; exact E.
  - intros H; inversion H; subst; cbn [level_get].
    + destruct (Z.ltb_spec z 0); [lia|reflexivity].
    + rewrite H0; reflexivity.
Qed.
Lemma level_get_err : forall c v x, level_get c v = Err x -> x = EKeyError /\ forall z, ~ level_number c v z.
Proof.
  intros c v x H; split.
  - destruct v; cbn [level_get] in H; try congruence.
    + destruct (z <? 0)%Z; congruence.
    + destruct (dget _ _ _); congruence.
  - intros z L; apply level_get_spec in L; congruence.
Qed.
Lemma errors_level_spec : forall c el l, error_level c el l (errors_level c el l).
Proof.
  intros c el l; unfold errors_level.
  destruct el as [v|].
  - destruct (level_get c v) as [z|x] eqn:E; [apply (el_explicit _ _ _ v); [reflexivity|apply level_get_spec; exact E]|].
    assert (U : ~ usable c (Some v)) by (intros [y [z [Ey Hy]]]; injection Ey as ->; apply level_get_err in E; exact (proj2 E z Hy)).
    destruct l as [w|].
    + destruct (level_get c w) as [z|x'] eqn:E2.
      * apply el_max; [exact U| |].
        -- intros y [->|[->|[v' [Ev Hv]]]]; [lia|lia|]. injection Ev as <-; apply level_get_spec in Hv; rewrite Hv in E2; injection E2 as ->; lia.
        -- destruct (Z.max_spec (Z.max (c_default c) (c_error c)) z) as [[_ ->]|[_ ->]];
             [right; right; exists w; split; [reflexivity|apply level_get_spec; exact E2]|].
           destruct (Z.max_spec (c_default c) (c_error c)) as [[_ ->]|[_ ->]]; auto.
      * apply el_max; [exact U| |].
        -- intros y [->|[->|[v' [Ev Hv]]]]; [lia|lia|]. injection Ev as <-; apply level_get_err in E2; exfalso; exact (proj2 E2 y Hv).
        -- destruct (Z.max_spec (c_default c) (c_error c)) as [[_ ->]|[_ ->]]; auto.
    + apply el_max; [exact U| |].
      * intros y [->|[->|[v' [Ev Hv]]]]; [lia|lia|discriminate].
      * destruct (Z.max_spec (c_default c) (c_error c)) as [[_ ->]|[_ ->]]; auto.
  - assert (U : ~ usable c None) by (intros [y [z [Ey Hy]]]; discriminate).
    destruct l as [w|].
    + destruct (level_get c w) as [z|x'] eqn:E2.
      * apply el_max; [exact U| |].
        -- intros y [->|[->|[v' [Ev Hv]]]]; [lia|lia|]. injection Ev as <-; apply level_get_spec in Hv; rewrite Hv in E2; injection E2 as ->; lia.
        -- destruct (Z.max_spec (Z.max (c_default c) (c_error c)) z) as [[_ ->]|[_ ->]];
             [right; right; exists w; split; [reflexivity|apply level_get_spec; exact E2]|].
           destruct (Z.max_spec (c_default c) (c_error c)) as [[_ ->]|[_ ->]]; auto.
      * apply el_max; [exact U| |].
        -- intros y [->|[->|[v' [Ev Hv]]]]; [lia|lia|]. injection Ev as <-; apply level_get_err in E2; exfalso; exact (proj2 E2 y Hv).
        -- destruct (Z.max_spec (c_default c) (c_error c)) as [[_ ->]|[_ ->]]; auto.
    + apply el_max; [exact U| |].
      * intros y [->|[->|[v' [Ev Hv]]]]; [lia|lia|discriminate].
      * destruct (Z.max_spec (c_default c) (c_error c)) as [[_ ->]|[_ ->]]; auto.
Qed.
Lemma error_level_fun : forall c el l x y, error_level c el l x -> error_level c el l y -> x = y.
Proof.
  intros c el l x y Hx Hy; inversion Hx as [v z E L|z U M I]; inversion Hy as [v' z' E' L'|z' U' M' I']; subst.
  - injection E' as <-; apply level_get_spec in L; apply level_get_spec in L'; congruence.
  - exfalso; apply U'; exists v, x; auto.
  - exfalso; apply U; exists v', y; auto.
  - pose proof (M y I'); pose proof (M' x I); lia.
Qed.
Lemma normal_level_fun : forall c v x y, normal_level c v x -> normal_level c v y -> x = y.
Proof.
  intros c v x y Hx Hy; destruct Hx as [|v z L]; inversion Hy as [|v' z' L' E]; subst; [reflexivity|].
  apply level_get_spec in L; apply level_get_spec in L'; congruence.
Qed.

(** Classes. *)
Lemma direct_bases : forall h c d, direct h c d <-> In d (bases h c).
Proof.
  intros h c d; unfold direct, bases; split.
  - intros [l [E H]]; rewrite (nth_error_nth h c [] E); exact H.
  - intros H; destruct (nth_error h c) as [l|] eqn:E.
    + exists l; split; [reflexivity|]; rewrite (nth_error_nth h c [] E) in H; exact H.
    + apply nth_error_None in E; rewrite nth_overflow in H by exact E; destruct H.
Qed.
Lemma anc_sub : forall h fuel c d, In d (anc h fuel c) -> subclass h c d.
Proof.
  intros h; induction fuel as [|n IH]; intros c d H; cbn [anc] in H.
  - destruct H as [->|[]]; apply rt_refl.
  - destruct H as [->|H]; [apply rt_refl|].
    apply in_flat_map in H; destruct H as [b [Hb Hd]].
    eapply rt_trans; [apply rt_step; apply direct_bases; exact Hb|apply IH; exact Hd].
Qed.
Lemma sub_anc : forall h, hier_ok h -> forall c d, subclass h c d -> forall fuel, c <= fuel -> In d (anc h fuel c).
Proof.
  intros h Ok c d H; apply clos_rt_rt1n in H.
  induction H as [|c b d Hb Hd IH]; intros fuel L; [destruct fuel; left; reflexivity|].
  apply direct_bases in Hb; pose proof (Ok c b Hb) as Lt; destruct fuel as [|n]; [lia|]; cbn [anc]; right.
  apply in_flat_map; exists b; split; [exact Hb|apply IH; lia].
Qed.
Lemma issubclass_spec : forall h c d, hier_ok h -> issubclass h c d = true <-> subclass h c d.
Proof.
  intros h c d Ok; unfold issubclass; rewrite existsb_exists; split.
  - intros [x [Hx E]]; apply Nat.eqb_eq in E; subst x; exact (anc_sub _ _ _ _ Hx).
  - intros H; exists d; split; [apply sub_anc; auto|apply Nat.eqb_refl].
Qed.
Lemma is_suppressed_spec : forall h c e l, hier_ok h -> is_suppressed h c e l = true <-> listed_exception h c e l.
Proof.
  intros h c e l Ok; unfold is_suppressed, listed_exception; destruct (c_subcls c); rewrite existsb_exists; split.
  - intros [d [Hd E]]; exists d; split; [exact Hd|apply issubclass_spec; auto].
  - intros [d [Hd E]]; exists d; split; [exact Hd|apply issubclass_spec; auto].
  - intros [d [Hd E]]; apply Nat.eqb_eq in E; eauto.
  - intros [d [Hd E]]; exists d; split; [exact Hd|apply Nat.eqb_eq; exact E].
Qed.

Lemma is_off_spec : forall s, is_off s = true <-> logging_off s.
Proof.
  intros s; unfold is_off, logging_off; destruct (unl s) as [[[|]|]|]; split; intros H; auto; try discriminate;
    destruct H as [H|[H1 H2]]; try discriminate; auto.
Qed.

Lemma suppress_good : forall h ex c all listed vs, hier_ok h -> exceptions_only h ex (Some vs) -> exists r, suppress h ex c all listed vs = Ok r.
Proof.
  intros h ex c all listed vs Hh G; unfold suppress.
  assert (E : exists l, suppress_classes h ex c vs = Ok l).
  { assert (G' : forall v, In v vs -> exists d n m, v = VClass d n m /\ subclass h d ex) by (intros v; apply (G vs v eq_refl)).
    clear G; induction vs as [|v r IH]; cbn; [eauto|].
    destruct (G' v (or_introl eq_refl)) as [d [n [m [-> Sub]]]]; rewrite (proj2 (issubclass_spec h d ex Hh) Sub).
    destruct IH as [l ->]; [intros v Hv; apply G'; right; exact Hv|]; cbn; eauto. }
  destruct E as [l ->]; cbn; eauto.
Qed.

(** The elementary steps of an execution. *)
Section Acts.
  Variable W : cenv.
  Variable R : cfg -> cfg -> Prop.

  Inductive act : st -> st -> Prop :=
  | a_start : forall s, act s (set_msg (emit (bump_c s) (EStart (ncall s))) None)
  | a_norm : forall p a kw n v s, act s (fst (log_normal W p a kw n v s))
  | a_exc : forall p a kw n e s, act s (fst (log_exception W p a kw n e s))
  | a_end : forall n o s, act s (emit s (EEnd n o))
  | a_off : forall f s, act s (set_unl (emit s (EOff f)) (Some f))
  | a_on : forall s, act s (set_unl (emit s EOn) None)
  | a_msg : forall args kw f s, message_fields (cf s) (ce W) args kw = Ok (Some f) -> act s (set_msg (emit s (EMsg f)) (Some f))
  | a_conf : forall c s, R (cf s) c -> act s (set_cf s c)
  | a_fins : forall l s, act s (set_fins s l)
  | a_stack : forall l s, act s (set_stack s l)
  | a_bump : forall s, act s (bump_e s)
  | a_manual : forall args kw s, act s (fst (manual W KManual args kw s))
  | a_block : forall i args kw s, act s (fst (manual W (KBlock i) args kw s)).
  Definition acts : st -> st -> Prop := clos_refl_trans_1n st act.

  Lemma acts_refl : forall s, acts s s. Proof. intros; constructor. Qed.
  Lemma acts_one : forall s s', act s s' -> acts s s'.
  Proof. intros s s' H; econstructor; [exact H|constructor]. Qed.
  Lemma acts_trans : forall a b c, acts a b -> acts b c -> acts a c.
  Proof. intros a b c H1 H2; induction H1; [exact H2|econstructor; [exact H|apply IHclos_refl_trans_1n; exact H2]]. Qed.

  Lemma put_acts : forall s i x, acts s (put_fin s i x).
  Proof. intros s i x; apply acts_one; apply (a_fins (replace (fins s) i x) s). Qed.

  Lemma after_acts : forall p a kw n o s s' o', after W p a kw n o s = (s', o') -> acts s s'.
  Proof.
    intros p a kw n o s s' o' H; unfold after in H; destruct o as [v|e].
    - pose proof (a_norm p a kw n v s) as A.
      destruct (log_normal W p a kw n v s) as [s1 r]; cbn [fst] in A; destruct r; cbn in H; injection H as <- <-.
      + apply acts_one; exact A.
      + eapply acts_trans; [apply acts_one; exact A|apply acts_one; constructor].
    - destruct (e_exc e); [|injection H as <- <-; apply acts_refl].
      pose proof (a_exc p a kw n e s) as A.
      destruct (log_exception W p a kw n e s) as [s1 r]; cbn [fst] in A; destruct r.
      + destruct (p_all p || is_suppressed (hi W) (cf s1) e (p_supp p)); injection H as <- <-; apply acts_one; exact A.
      + cbn in H; injection H as <- <-; eapply acts_trans; [apply acts_one; exact A|apply acts_one; constructor].
  Qed.

  Lemma leave_acts : forall i o s s' o', leave W s i o = (s', o') -> acts s s'.
  Proof.
    intros i o s s' o' H; unfold leave in H.
    set (d0 := match o with ORet _ => _ | ORaise e => _ end) in H; destruct d0 as [d|z].
    2: { cbn in H; injection H as <- <-; apply acts_one; constructor. }
    cbv zeta in H.
    set (x := mkFin _ _ _ _ _ _ _) in H.
    pose proof (a_block i [] (fset d "time_of_work" (dur W)) (put_fin s i x)) as A.
    destruct (manual W (KBlock i) [] (fset d "time_of_work" (dur W)) (put_fin s i x)) as [s2 r]; cbn [fst] in A.
    assert (B : acts s s2) by (eapply acts_trans; [apply acts_one; apply (a_fins (replace (fins s) i x))|apply acts_one; exact A]).
    destruct r as [t|z].
    - destruct o as [v|e]; [injection H as <- <-; exact B|].
      destruct (f_all (get_fin s i)); [injection H as <- <-; exact B|].
      destruct (match f_supp (get_fin s i) with [] => _ | _ => _ end); injection H as <- <-; exact B.
    - cbn in H; injection H as <- <-; eapply acts_trans; [exact B|apply acts_one; constructor].
  Qed.

  Lemma edit_acts : forall s i args kw, acts s (fst (edit s i args kw)).
  Proof.
    intros s i args kw; unfold edit; destruct (f_entered (get_fin s i)).
    - destruct (convert_arguments (cf s) args kw); cbn [fst]; [apply acts_one; constructor|apply acts_refl].
    - destruct (negb (Nat.eqb (length args) 1) && negb (Nat.eqb (length kw) 0)); [apply acts_refl|].
      destruct args; [apply acts_refl|]; destruct (f_used (get_fin s i)); [apply acts_refl|apply acts_one; constructor].
  Qed.

  Lemma supp_acts : forall s i vs, acts s (fst (add_supp W s i vs)).
  Proof. intros s i vs; unfold add_supp; destruct (suppress _ _ _ _ _ _) as [[all l]|z]; [apply put_acts|apply acts_refl]. Qed.
  Lemma partial_acts : forall s i kw supp, acts s (fst (partial_enter W s i kw supp)).
  Proof.
    intros s i kw supp; unfold partial_enter; destruct supp; [|apply edit_acts].
    eapply acts_trans; [apply edit_acts|apply supp_acts].
  Qed.

  Lemma exec_acts : forall q, confs R q -> forall s s' o, exec W q s = (s', o) -> acts s s'.
  Proof.
    induction q as [o|p a kw body IHb k IHk|full body IHb k IHk|h body IHb k IHk|args kw k IHk|f k IHk|args kw k IHk
                    |i k IHk|i cs k IHk|i args kw k IHk|i body IHb k IHk|kw supp body IHb k IHk];
      intros C s s' o' H; cbn [confs] in C; cbn [exec] in H.
    - injection H as <- <-; apply acts_refl.
    - destruct C as [C1 C2].
      destruct (exec W body _) as [s1 o1] eqn:E1; destruct (after W p a kw (ncall s) o1 s1) as [s2 o2] eqn:E2.
      eapply acts_trans; [apply acts_one; apply a_start|].
      eapply acts_trans; [exact (IHb C1 _ _ _ E1)|].
      eapply acts_trans; [exact (after_acts _ _ _ _ _ _ _ _ E2)|].
      eapply acts_trans; [apply acts_one; apply a_end|].
      exact (IHk o2 (C2 o2) _ _ _ H).
    - destruct C as [C1 C2]; destruct (exec W body _) as [s1 o1] eqn:E1.
      eapply acts_trans; [apply acts_one; apply (a_off full)|].
      eapply acts_trans; [exact (IHb C1 _ _ _ E1)|].
      eapply acts_trans; [apply acts_one; apply a_on|exact (IHk o1 (C2 o1) _ _ _ H)].
    - destruct C as [C1 C2]; destruct (exec W body _) as [s1 o1] eqn:E1.
      eapply acts_trans; [exact (IHb C1 _ _ _ E1)|exact (IHk _ (C2 _) _ _ _ H)].
    - destruct (message_fields (cf s) (ce W) args kw) as [[f|]|x] eqn:E.
      + eapply acts_trans; [apply acts_one; exact (a_msg args kw f s E)|exact (IHk _ (C _) _ _ _ H)].
      + exact (IHk _ (C _) _ _ _ H).
      + cbn in H; eapply acts_trans; [apply acts_one; apply a_bump|exact (IHk _ (C _) _ _ _ H)].
    - destruct C as [C1 C2]; eapply acts_trans; [apply acts_one; apply (a_conf (f (cf s))); apply C1|exact (IHk C2 _ _ _ H)].
    - unfold new_fin in H; destruct (convert_arguments (cf s) args kw) as [d|x]; cbn [bindR] in H.
      + eapply acts_trans; [apply acts_one; apply a_fins|exact (IHk _ (C _) _ _ _ H)].
      + eapply acts_trans; [apply acts_one; apply a_bump|exact (IHk _ (C _) _ _ _ H)].
    - destruct (f_used (get_fin s i)); [exact (IHk C _ _ _ H)|].
      eapply acts_trans; [|exact (IHk C _ _ _ H)].
      eapply acts_trans; [|apply acts_one; apply a_manual]; apply put_acts.
    - pose proof (supp_acts s i cs) as A; destruct (add_supp W s i cs) as [s1 r]; cbn [fst] in A.
      destruct r; cbn in H.
      + eapply acts_trans; [exact A|exact (IHk _ (C _) _ _ _ H)].
      + eapply acts_trans; [exact A|]; eapply acts_trans; [apply acts_one; apply a_bump|exact (IHk _ (C _) _ _ _ H)].
    - pose proof (edit_acts s i args kw) as A; destruct (edit s i args kw) as [s1 r]; cbn [fst] in A.
      destruct r; cbn in H.
      + eapply acts_trans; [exact A|exact (IHk _ (C _) _ _ _ H)].
      + eapply acts_trans; [exact A|]; eapply acts_trans; [apply acts_one; apply a_bump|exact (IHk _ (C _) _ _ _ H)].
    - destruct C as [C1 C2]; unfold enter in H; destruct (f_used (get_fin s i) || f_entered (get_fin s i)).
      + cbn in H; eapply acts_trans; [apply acts_one; apply a_bump|exact (IHk _ (C2 _) _ _ _ H)].
      + destruct (exec W body _) as [s1 o1] eqn:E1; destruct (leave W s1 i o1) as [s2 o2] eqn:E2.
        eapply acts_trans; [|eapply acts_trans; [exact (IHb C1 _ _ _ E1)|]]; [apply put_acts|].
        eapply acts_trans; [exact (leave_acts _ _ _ _ _ E2)|exact (IHk _ (C2 _) _ _ _ H)].
    - destruct C as [C1 C2]; cbv zeta in H.
      set (i := length (fins s)) in *.
      set (s1 := push (set_fins s (fins s ++ [mkFin [] [] [] [] false false false])) i) in *.
      assert (A1 : acts s s1).
      { eapply acts_trans; [apply acts_one; apply (a_fins (fins s ++ [mkFin [] [] [] [] false false false]) s)|apply acts_one; apply a_stack]. }
      unfold enter in H; destruct (f_used (get_fin s1 i) || f_entered (get_fin s1 i)).
      + cbn in H; eapply acts_trans; [exact A1|]; eapply acts_trans; [apply acts_one; apply a_bump|exact (IHk _ (C2 _) _ _ _ H)].
      + set (s2 := put_fin s1 i _) in H.
        assert (A2 : acts s1 s2) by apply put_acts.
        pose proof (partial_acts s2 i kw supp) as A3; destruct (partial_enter W s2 i kw supp) as [s4 r0]; cbn [fst] in A3.
        assert (A : acts s s4) by (eapply acts_trans; [exact A1|eapply acts_trans; [exact A2|exact A3]]).
        destruct r0 as [u|z].
        2: { cbn in H; eapply acts_trans; [exact A|]; eapply acts_trans; [apply acts_one; apply a_bump|exact (IHk _ (C2 _) _ _ _ H)]. }
        destruct (exec W (body i) s4) as [s5 o1] eqn:E1.
        pose proof (IHb i (C1 i) _ _ _ E1) as A5.
        unfold pop in H; destruct (rstack s5) as [[|j r]|].
        * cbn in H; eapply acts_trans; [exact A|]; eapply acts_trans; [exact A5|]; eapply acts_trans; [apply acts_one; apply a_bump|exact (IHk _ (C2 _) _ _ _ H)].
        * destruct (leave W _ j o1) as [s7 o2] eqn:E2.
          eapply acts_trans; [exact A|]; eapply acts_trans; [exact A5|].
          eapply acts_trans; [|eapply acts_trans; [exact (leave_acts _ _ _ _ _ E2)|exact (IHk _ (C2 _) _ _ _ H)]].
          apply acts_one; apply a_stack.
        * cbn in H; eapply acts_trans; [exact A|]; eapply acts_trans; [exact A5|]; eapply acts_trans; [apply acts_one; apply a_bump|exact (IHk _ (C2 _) _ _ _ H)].
  Qed.

  (** Induction along an execution. *)
  Lemma acts_inv : forall (I : st -> Prop), (forall s s', act s s' -> I s -> I s') -> forall s s', acts s s' -> I s -> I s'.
  Proof. intros I H s s' A; induction A; intros Hs; [exact Hs|apply IHA; exact (H _ _ H0 Hs)]. Qed.
End Acts.

Lemma confs_any : forall q, confs (fun _ _ => True) q.
Proof. induction q; cbn [confs]; auto. Qed.
