(** Comparing executions: a program with and without its decorators, with a partial unlog and without it. *)
From Coq Require Import Relations Lia.
From Verif Require Import Base Handle_Model Handle_Spec Handle_Proofs Supp_Model Call_Model Call_Spec Call_Proofs Call_Inv Call_Struct.
Local Open Scope string_scope.
Local Open Scope list_scope.

Section Sim.
  Variable W : cenv.

  (** What the user's code can see of polog's state (except for records). *)
  Definition same (s t : st) : Prop := cf s = cf t /\ fins s = fins t /\ rstack s = rstack t /\ nexte s = nexte t.

  Definition is_err {A : Type} (r : Res A) : option exn := match r with Ok _ => None | Err x => Some x end.
  Lemma handle_off : forall c w all a b args kw, is_err (handle c w all a args kw) = is_err (handle c w all b args kw).
  Proof.
    intros c w all a b args kw; unfold handle; destruct (handle_fields c w all args kw) as [f|x]; cbn [bindR]; [|reflexivity].
    destruct (fget f "level") as [[]|]; reflexivity.
  Qed.

  Lemma manual_same : forall k args kw s t, same s t ->
    same (fst (manual W k args kw s)) (fst (manual W k args kw t)) /\ snd (manual W k args kw s) = snd (manual W k args kw t).
  Proof.
    intros k args kw s t [H1 [H2 [H3 H4]]]; unfold manual; rewrite H1.
    pose proof (handle_off (cf t) (ce W) true (is_off s) (is_off t) args kw) as E.
    destruct (handle (cf t) (ce W) true (is_off s) args kw) as [[f|]|x], (handle (cf t) (ce W) true (is_off t) args kw) as [[g|]|y];
      cbn in E; try discriminate; cbn [fst snd]; (split; [|congruence]); unfold same; cbn; auto.
  Qed.

  Lemma get_fin_same : forall s t i, same s t -> get_fin s i = get_fin t i.
  Proof. intros s t i [_ [H _]]; unfold get_fin; rewrite H; reflexivity. Qed.
  Lemma put_fin_same : forall s t i x, same s t -> same (put_fin s i x) (put_fin t i x).
  Proof. intros s t i x [H1 [H2 [H3 H4]]]; unfold same; cbn; rewrite H2; auto. Qed.
  Lemma raise_same : forall s t x, same s t -> same (fst (raise_ W s x)) (fst (raise_ W t x)) /\ snd (raise_ W s x) = snd (raise_ W t x).
  Proof. intros s t x [H1 [H2 [H3 H4]]]; unfold same; cbn; rewrite H4; auto 10. Qed.

  Lemma enter_same : forall s t i, same s t ->
    match enter W s i, enter W t i with Some a, Some b => same a b | None, None => True | _, _ => False end.
  Proof.
    intros s t i H; unfold enter; rewrite (get_fin_same _ _ _ H); destruct (f_used _ || f_entered _); [exact I|].
    apply put_fin_same; exact H.
  Qed.

  Lemma leave_same : forall s t i o, same s t -> same (fst (leave W s i o)) (fst (leave W t i o)) /\ snd (leave W s i o) = snd (leave W t i o).
  Proof.
    intros s t i o H; unfold leave; rewrite (get_fin_same _ _ _ H); set (x := get_fin t i).
    set (d0 := match o with ORet _ => _ | ORaise e => _ end); destruct d0 as [d|z]; [|apply raise_same; exact H].
    cbv zeta; set (y := mkFin _ _ _ _ _ _ _).
    pose proof (manual_same (KBlock i) [] (fset d "time_of_work" (dur W)) _ _ (put_fin_same s t i y H)) as [M1 M2].
    pose proof (manual_frame W (KBlock i) [] (fset d "time_of_work" (dur W)) (put_fin s i y)) as F.
    destruct (manual W _ _ _ (put_fin s i y)) as [s2 r], (manual W _ _ _ (put_fin t i y)) as [t2 r']; cbn [fst snd] in *; subst r'.
    destruct r as [u|z]; [|apply raise_same; exact M1].
    destruct o as [v|e]; [split; [exact M1|reflexivity]|].
    destruct (f_all x); [split; [exact M1|reflexivity]|].
    rewrite (proj1 M1).
    destruct (match f_supp x with [] => _ | _ => _ end); split; try exact M1; reflexivity.
  Qed.

  Lemma edit_same : forall s t i args kw, same s t -> same (fst (edit s i args kw)) (fst (edit t i args kw)) /\ snd (edit s i args kw) = snd (edit t i args kw).
  Proof.
    intros s t i args kw H; unfold edit; rewrite (get_fin_same _ _ _ H), (proj1 H).
    destruct (f_entered (get_fin t i)).
    - destruct (convert_arguments (cf t) args kw); cbn [fst snd]; (split; [|reflexivity]); [apply put_fin_same; exact H|exact H].
    - destruct (negb (Nat.eqb (length args) 1) && negb (Nat.eqb (length kw) 0)); [split; [exact H|reflexivity]|].
      destruct args; [split; [exact H|reflexivity]|]; destruct (f_used (get_fin t i)); [split; [exact H|reflexivity]|].
      cbn [fst snd]; split; [apply put_fin_same; exact H|reflexivity].
  Qed.

  Lemma supp_same : forall s t i vs, same s t -> same (fst (add_supp W s i vs)) (fst (add_supp W t i vs)) /\ snd (add_supp W s i vs) = snd (add_supp W t i vs).
  Proof.
    intros s t i vs H; unfold add_supp; rewrite (get_fin_same _ _ _ H), (proj1 H).
    destruct (suppress _ _ _ _ _ _) as [[all l]|z]; cbn [fst snd]; (split; [|reflexivity]); [apply put_fin_same; exact H|exact H].
  Qed.
  Lemma partial_same : forall s t i kw g, same s t ->
    same (fst (partial_enter W s i kw g)) (fst (partial_enter W t i kw g)) /\ snd (partial_enter W s i kw g) = snd (partial_enter W t i kw g).
  Proof.
    intros s t i kw g H; unfold partial_enter; pose proof (edit_same s t i [] kw H) as [E _].
    destruct g; [apply supp_same; exact E|split; [exact E|reflexivity]].
  Qed.

  (** ** With and without decorators *)
  Definition names_kept (c c' : cfg) : Prop := forall s, dget String.eqb (c_levels c) s <> None -> dget String.eqb (c_levels c') s <> None.
  Definition layer_ok (c : cfg) (p : params) : Prop := p_level p = None \/ usable c (p_level p).

  Lemma kept_trans : forall a b c, names_kept a b -> names_kept b c -> names_kept a c.
  Proof. intros a b c H1 H2 s Hs; apply H2; apply H1; exact Hs. Qed.
  Lemma layer_get : forall c0 c p, names_kept c0 c -> layer_ok c0 p -> exists l, match p_level p with None => Ok (c_default c) | Some l => level_get c l end = Ok l.
  Proof.
    intros c0 c p K [E|[v [z [E L]]]]; rewrite E; [eauto|].
    inversion L as [y Hy E2 E3|nm y Hy E2 E3]; subst; cbn.
    - destruct (Z.ltb_spec z 0); [lia|eauto].
    - assert (N : dget String.eqb (c_levels c) nm <> None) by (apply K; rewrite Hy; discriminate).
      destruct (dget String.eqb (c_levels c) nm); [eauto|contradiction].
  Qed.

  Section Bare.
    Hypothesis Jone : forall v, is_ok (jone W v) = true.
    Hypothesis Jvars : forall a kw, is_ok (jvars W a kw) = true.
    Hypothesis Estr : forall e, is_ok (estr (ce W) e) = true.

    Lemma after_bare : forall c0 p a kw n o s s' o', names_kept c0 (cf s) -> layer_ok c0 p -> after W p a kw n o s = (s', o') ->
      same s' s /\ o' = except_for (hi W) p (cf s) o.
    Proof.
      intros c0 p a kw n o s s' o' K L H; unfold after in H; destruct o as [v|e].
      - unfold log_normal in H; destruct (is_off s); [injection H as <- <-; split; [repeat split|reflexivity]|].
        destruct (layer_get _ _ _ K L) as [l El]; rewrite El in H; destruct (c_level (cf s) <=? l)%Z; [|injection H as <- <-; split; [repeat split|reflexivity]].
        pose proof (Jone v) as J; destruct (jone W v); [|discriminate].
        pose proof (Jvars a kw) as J'; destruct (jvars W a kw); [|discriminate].
        cbv zeta in H; injection H as <- <-; split; [repeat split|reflexivity].
      - unfold except_for; destruct (e_exc e); cbn [andb]; [|injection H as <- <-; split; [repeat split|reflexivity]].
        assert (X : exists s1, log_exception W p a kw n e s = (s1, Ok tt) /\ same s1 s).
        { unfold log_exception; destruct (is_off s); [eexists; split; [reflexivity|repeat split]|].
          destruct (negb (marked s e) || negb (c_dedup (cf s))); [|eexists; split; [reflexivity|repeat split]].
          cbv zeta; destruct (c_level (cf s) <=? _)%Z; [|eexists; split; [reflexivity|repeat split]].
          unfold exception_to_dict; pose proof (Estr e) as J; destruct (estr (ce W) e); [|discriminate]; cbn [bindR].
          pose proof (Jvars a kw) as J'; destruct (jvars W a kw); [|discriminate].
          eexists; split; [reflexivity|repeat split]. }
        destruct X as [s1 [E S]]; rewrite E in H; rewrite (proj1 S) in H.
        destruct (p_all p || is_suppressed (hi W) (cf s) e (p_supp p)); injection H as <- <-; split; try exact S; reflexivity.
    Qed.

    Lemma bare_same : forall c0 q, confs names_kept q -> layers_ok (layer_ok c0) q -> forall s t, same s t -> names_kept c0 (cf s) ->
      forall s' o t' o', exec W q s = (s', o) -> exec W (bare (hi W) q) t = (t', o') -> same s' t' /\ o = o' /\ names_kept c0 (cf s').
    Proof.
      intros c0; induction q as [o|p a kw body IHb k IHk|full body IHb k IHk|h body IHb k IHk|args kw k IHk|f k IHk|args kw k IHk
                      |i k IHk|i cs k IHk|i args kw k IHk|i body IHb k IHk|kw supp body IHb k IHk];
        intros C L s t S K s' o1 t' o2 H1 H2; cbn [exec bare] in H1, H2; cbn [confs layers_ok] in C, L.
      - injection H1 as <- <-; injection H2 as <- <-; auto.
      - destruct C as [Cb Ck]; destruct L as [Lp [Lb Lk]].
        destruct (exec W body _) as [s1 x] eqn:E1 in H1; destruct (exec W (bare (hi W) body) t) as [t1 y] eqn:E2.
        destruct (after W p a kw (ncall s) x s1) as [s2 z] eqn:E3.
        assert (S0 : same (set_msg (emit (bump_c s) (EStart (ncall s))) None) t) by exact S.
        destruct (IHb Cb Lb _ _ S0 K _ _ _ _ E1 E2) as [S1 [-> K1]].
        destruct (after_bare c0 _ _ _ _ _ _ _ _ K1 Lp E3) as [S2 ->].
        rewrite (proj1 S1) in H1.
        apply (IHk (except_for (hi W) p (cf t1) y) (Ck _) (Lk _) _ _) with (4 := H2) (3 := H1).
        + destruct S1 as [A1 [A2 [A3 A4]]], S2 as [B1 [B2 [B3 B4]]]; unfold same; cbn; repeat split; congruence.
        + cbn; rewrite (proj1 S2); exact K1.
      - destruct C as [Cb Ck]; destruct L as [Lb Lk].
        destruct (exec W body _) as [s1 x] eqn:E1 in H1; destruct (exec W (bare (hi W) body) t) as [t1 y] eqn:E2.
        destruct (IHb Cb Lb _ _ (S : same (set_unl (emit s (EOff full)) (Some full)) t) K _ _ _ _ E1 E2) as [S1 [-> K1]].
        exact (IHk y (Ck _) (Lk _) _ _ (S1 : same (set_unl (emit s1 EOn) None) t1) K1 _ _ _ _ H1 H2).
      - destruct C as [Cb Ck]; destruct L as [Lb Lk].
        destruct (exec W body _) as [s1 x] eqn:E1 in H1; destruct (exec W (bare (hi W) body) t) as [t1 y] eqn:E2.
        destruct (IHb Cb Lb _ _ S K _ _ _ _ E1 E2) as [S1 [-> K1]].
        rewrite <- (proj1 S1) in H2; exact (IHk _ (Ck _) (Lk _) _ _ S1 K1 _ _ _ _ H1 H2).
      - rewrite <- (proj1 S) in H2; destruct (message_fields (cf s) (ce W) args kw) as [[f|]|x].
        + exact (IHk _ (C _) (L _) _ _ (S : same (set_msg (emit s (EMsg f)) (Some f)) (set_msg (emit t (EMsg f)) (Some f))) K _ _ _ _ H1 H2).
        + exact (IHk _ (C _) (L _) _ _ S K _ _ _ _ H1 H2).
        + cbn in H1, H2; destruct S as [S1 [S2 [S3 S4]]]; rewrite <- S4 in H2.
          assert (S' : same (bump_e s) (bump_e t)) by (unfold same; cbn; auto).
          exact (IHk _ (C _) (L _) _ _ S' K _ _ _ _ H1 H2).
      - destruct C as [Cf Ck]; rewrite <- (proj1 S) in H2.
        assert (S' : same (set_cf s (f (cf s))) (set_cf t (f (cf s)))) by (destruct S as [S1 [S2 [S3 S4]]]; unfold same; cbn; auto).
        exact (IHk Ck L _ _ S' (kept_trans _ _ _ K (Cf (cf s))) _ _ _ _ H1 H2).
      - unfold new_fin in H1, H2; destruct S as [S1 [S2 [S3 S4]]]; rewrite <- S1 in H2.
        destruct (convert_arguments (cf s) args kw) as [d|x]; cbn [bindR] in H1, H2.
        + rewrite <- S2 in H2.
          assert (S' : same (set_fins s (fins s ++ [mkFin args kw d [] false false false])) (set_fins t (fins s ++ [mkFin args kw d [] false false false])))
            by (unfold same; cbn; auto).
          exact (IHk _ (C _) (L _) _ _ S' K _ _ _ _ H1 H2).
        + rewrite <- S4 in H2.
          assert (S' : same (bump_e s) (bump_e t)) by (unfold same; cbn; auto).
          exact (IHk _ (C _) (L _) _ _ S' K _ _ _ _ H1 H2).
      - rewrite <- (get_fin_same _ _ i S) in H2; destruct (f_used (get_fin s i)); [exact (IHk C L _ _ S K _ _ _ _ H1 H2)|].
        set (x := mkFin _ _ _ _ _ _ _) in H1, H2.
        destruct (manual_same KManual (f_args (get_fin s i)) (f_kw (get_fin s i)) _ _ (put_fin_same s t i x S)) as [S' _].
        apply (IHk C L _ _ S') with (2 := H1) (3 := H2).
        pose proof (manual_frame W KManual (f_args (get_fin s i)) (f_kw (get_fin s i)) (put_fin s i x)) as F; cbv zeta in F.
        destruct F as [_ [_ [_ [_ [-> _]]]]]; exact K.
      - destruct (supp_same s t i cs S) as [S' E]; pose proof (supp_frame W s i cs) as F; cbv zeta in F.
        destruct (add_supp W s i cs) as [s1 r], (add_supp W t i cs) as [t1 r']; cbn [fst snd] in *; subst r'.
        assert (K1 : names_kept c0 (cf s1)) by (destruct F as [_ [_ [_ [-> _]]]]; exact K).
        destruct r as [u|x]; cbn in H1, H2; [exact (IHk _ (C _) (L _) _ _ S' K1 _ _ _ _ H1 H2)|].
        destruct S' as [S1 [S2 [S3 S4]]]; rewrite <- S4 in H2.
        assert (S' : same (bump_e s1) (bump_e t1)) by (unfold same; cbn; auto).
        exact (IHk _ (C _) (L _) _ _ S' K1 _ _ _ _ H1 H2).
      - destruct (edit_same s t i args kw S) as [S' E]; pose proof (edit_frame s i args kw) as F; cbv zeta in F.
        destruct (edit s i args kw) as [s1 r], (edit t i args kw) as [t1 r']; cbn [fst snd] in *; subst r'.
        assert (K1 : names_kept c0 (cf s1)) by (destruct F as [_ [_ [_ [-> _]]]]; exact K).
        destruct r as [u|x]; cbn in H1, H2; [exact (IHk _ (C _) (L _) _ _ S' K1 _ _ _ _ H1 H2)|].
        destruct S' as [S1 [S2 [S3 S4]]]; rewrite <- S4 in H2.
        assert (S' : same (bump_e s1) (bump_e t1)) by (unfold same; cbn; auto).
        exact (IHk _ (C _) (L _) _ _ S' K1 _ _ _ _ H1 H2).
      - destruct C as [Cb Ck]; destruct L as [Lb Lk].
        pose proof (enter_same s t i S) as En; destruct (enter W s i) as [s1|] eqn:E0, (enter W t i) as [t1|]; try contradiction.
        + assert (K1 : names_kept c0 (cf s1)) by (unfold enter in E0; destruct (f_used _ || f_entered _); [discriminate|]; injection E0 as <-; exact K).
          destruct (exec W body s1) as [s2 x] eqn:E1; destruct (exec W (bare (hi W) body) t1) as [t2 y] eqn:E2.
          destruct (IHb Cb Lb _ _ En K1 _ _ _ _ E1 E2) as [S2 [-> K2]].
          destruct (leave_same s2 t2 i y S2) as [S3 E]; destruct (leave W s2 i y) as [s3 z] eqn:Lv; destruct (leave W t2 i y) as [t3 z']; cbn [fst snd] in *; subst z'.
          assert (K3 : names_kept c0 (cf s3)) by (destruct (leave_frame W _ _ _ _ _ Lv) as [_ [_ [-> _]]]; exact K2).
          exact (IHk _ (Ck _) (Lk _) _ _ S3 K3 _ _ _ _ H1 H2).
        + cbn in H1, H2; destruct S as [S1 [S2 [S3 S4]]]; rewrite <- S4 in H2.
          assert (S' : same (bump_e s) (bump_e t)) by (unfold same; cbn; auto).
          exact (IHk _ (Ck _) (Lk _) _ _ S' K _ _ _ _ H1 H2).
      - destruct C as [Cb Ck]; destruct L as [Lb Lk]; cbv zeta in H1, H2.
        assert (Fe : fins s = fins t) by apply S; rewrite <- Fe in H2; set (i := length (fins s)) in *.
        set (s1 := push (set_fins s _) i) in H1; set (t1 := push (set_fins t _) i) in H2.
        assert (S1 : same s1 t1) by (destruct S as [A1 [A2 [A3 A4]]]; unfold same, s1, t1, push; cbn; rewrite A3; auto).
        pose proof (enter_same s1 t1 i S1) as En; destruct (enter W s1 i) as [s2|] eqn:E0, (enter W t1 i) as [t2|]; try contradiction.
        + assert (K2 : names_kept c0 (cf s2)) by (unfold enter in E0; destruct (f_used _ || f_entered _); [discriminate|]; injection E0 as <-; exact K).
          destruct (partial_same s2 t2 i kw supp En) as [S4 E4]; pose proof (partial_frame W s2 i kw supp) as F; cbv zeta in F.
          destruct (partial_enter W s2 i kw supp) as [s4 r], (partial_enter W t2 i kw supp) as [t4 r']; cbn [fst snd] in *; subst r'.
          assert (K4 : names_kept c0 (cf s4)) by (destruct F as [_ [_ [_ [-> _]]]]; exact K2).
          destruct r as [u|z].
          2: { cbn in H1, H2; destruct S4 as [A1 [A2 [A3 A4]]]; rewrite <- A4 in H2.
               assert (S' : same (bump_e s4) (bump_e t4)) by (unfold same; cbn; auto).
               exact (IHk _ (Ck _) (Lk _) _ _ S' K4 _ _ _ _ H1 H2). }
          destruct (exec W (body i) s4) as [s5 x] eqn:E1; destruct (exec W (bare (hi W) (body i)) t4) as [t5 y] eqn:E2.
          destruct (IHb i (Cb i) (Lb i) _ _ S4 K4 _ _ _ _ E1 E2) as [S5 [-> K5]].
          assert (Po : match pop s5, pop t5 with Some (a, i1), Some (b, i2) => same a b /\ i1 = i2 /\ cf a = cf s5 | None, None => True | _, _ => False end).
          { destruct S5 as [A1 [A2 [A3 A4]]]; unfold pop; rewrite <- A3; destruct (rstack s5) as [[|z r]|]; try exact I; cbn.
            split; [unfold same; cbn; auto|auto]. }
          destruct (pop s5) as [[s6 j]|], (pop t5) as [[t6 j']|]; try contradiction.
          * destruct Po as [S6 [<- C6]].
            destruct (leave_same s6 t6 j y S6) as [S7 E]; destruct (leave W s6 j y) as [s7 z] eqn:Lv; destruct (leave W t6 j y) as [t7 z']; cbn [fst snd] in *; subst z'.
            assert (K7 : names_kept c0 (cf s7)) by (destruct (leave_frame W _ _ _ _ _ Lv) as [_ [_ [-> _]]]; rewrite C6; exact K5).
            exact (IHk _ (Ck _) (Lk _) _ _ S7 K7 _ _ _ _ H1 H2).
          * cbn in H1, H2; destruct S5 as [A1 [A2 [A3 A4]]]; rewrite <- A4 in H2.
            assert (S' : same (bump_e s5) (bump_e t5)) by (unfold same; cbn; auto).
            exact (IHk _ (Ck _) (Lk _) _ _ S' K5 _ _ _ _ H1 H2).
        + cbn in H1, H2; destruct S1 as [A1 [A2 [A3 A4]]].
          assert (N : nexte s = nexte t) by exact A4; rewrite <- N in H2.
          assert (S' : same (bump_e s1) (bump_e t1)) by (unfold same; cbn; auto).
          exact (IHk _ (Ck _) (Lk _) _ _ S' K _ _ _ _ H1 H2).
    Qed.
  End Bare.

  (** ** A partial unlog *)
  Definition shift (u : option (option bool)) (s : st) : st := set_unl s u.
  (** Two orders of unlog under which logging is on, or the same order. *)
  Definition both_on (a b : option (option bool)) : Prop := a = b \/ ((a = None \/ a = Some (Some false)) /\ (b = None \/ b = Some (Some false))).
  Lemma both_off : forall s u, both_on (unl s) u -> is_off (shift u s) = is_off s.
  Proof.
    intros s u [<-|[A B]]; [destruct s; reflexivity|].
    unfold is_off; cbn; destruct A as [-> | ->], B as [-> | ->]; reflexivity.
  Qed.
  Lemma log_normal_shift : forall p a kw n v s u, both_on (unl s) u ->
    log_normal W p a kw n v (shift u s) = (shift u (fst (log_normal W p a kw n v s)), snd (log_normal W p a kw n v s)).
  Proof.
    intros p a kw n v s u B; unfold log_normal; rewrite (both_off _ _ B); destruct (is_off s); [reflexivity|].
    cbn [cf shift set_unl]; destruct (match p_level p with None => _ | Some l => _ end) as [z|]; [|reflexivity].
    destruct (c_level (cf s) <=? z)%Z; [|reflexivity]; destruct (jone W v); [|reflexivity]; cbv zeta; destruct (jvars W a kw); reflexivity.
  Qed.
  Lemma log_exception_shift : forall p a kw n e s u, both_on (unl s) u ->
    log_exception W p a kw n e (shift u s) = (shift u (fst (log_exception W p a kw n e s)), snd (log_exception W p a kw n e s)).
  Proof.
    intros p a kw n e s u B; unfold log_exception; rewrite (both_off _ _ B); destruct (is_off s); [reflexivity|].
    unfold marked; cbn [cf marks shift set_unl]; destruct (negb _ || negb _); [|reflexivity].
    cbv zeta; destruct (c_level (cf s) <=? _)%Z; [|reflexivity]; destruct (exception_to_dict _ _ _); [|reflexivity]; destruct (jvars W a kw); reflexivity.
  Qed.
  Lemma manual_shift : forall k args kw s u, both_on (unl s) u ->
    manual W k args kw (shift u s) = (shift u (fst (manual W k args kw s)), snd (manual W k args kw s)).
  Proof.
    intros k args kw s u B; unfold manual; rewrite (both_off _ _ B); cbn [cf shift set_unl].
    destruct (handle _ _ _ _ _ _) as [[f|]|x]; reflexivity.
  Qed.
  Lemma after_shift : forall p a kw n o s u, both_on (unl s) u ->
    after W p a kw n o (shift u s) = (shift u (fst (after W p a kw n o s)), snd (after W p a kw n o s)).
  Proof.
    intros p a kw n o s u B; unfold after; destruct o as [v|e].
    - rewrite (log_normal_shift _ _ _ _ _ _ _ B); destruct (log_normal W p a kw n v s) as [s1 r]; cbn [fst snd]; destruct r; reflexivity.
    - destruct (e_exc e); [|reflexivity].
      rewrite (log_exception_shift _ _ _ _ _ _ _ B); destruct (log_exception W p a kw n e s) as [s1 r]; cbn [fst snd]; destruct r; [|reflexivity].
      cbn [cf shift set_unl]; destruct (p_all p || is_suppressed _ _ _ _); reflexivity.
  Qed.
  Lemma leave_shift : forall s i o u, both_on (unl s) u -> leave W (shift u s) i o = (shift u (fst (leave W s i o)), snd (leave W s i o)).
  Proof.
    intros s i o u B; unfold leave; change (get_fin (shift u s) i) with (get_fin s i).
    set (d0 := match o with ORet _ => _ | ORaise e => _ end); destruct d0 as [d|z]; [|reflexivity].
    cbv zeta; set (y := mkFin _ _ _ _ _ _ _); change (put_fin (shift u s) i y) with (shift u (put_fin s i y)).
    rewrite (manual_shift _ _ _ (put_fin s i y) u B); destruct (manual W _ _ _ (put_fin s i y)) as [s2 r]; cbn [fst snd].
    destruct r; [|reflexivity]; destruct o as [v|e]; [reflexivity|]; destruct (f_all (get_fin s i)); [reflexivity|].
    cbn [cf shift set_unl]; destruct (match f_supp _ with [] => _ | _ => _ end); reflexivity.
  Qed.
  Lemma edit_shift : forall s i args kw u, edit (shift u s) i args kw = (shift u (fst (edit s i args kw)), snd (edit s i args kw)).
  Proof.
    intros s i args kw u; unfold edit; change (get_fin (shift u s) i) with (get_fin s i); cbn [cf shift set_unl].
    destruct (f_entered _); [destruct (convert_arguments _ _ _); reflexivity|].
    destruct (negb _ && negb _); [reflexivity|]; destruct args; [reflexivity|]; destruct (f_used _); reflexivity.
  Qed.
  Lemma supp_shift : forall s i vs u, add_supp W (shift u s) i vs = (shift u (fst (add_supp W s i vs)), snd (add_supp W s i vs)).
  Proof.
    intros s i vs u; unfold add_supp; change (get_fin (shift u s) i) with (get_fin s i); cbn [cf shift set_unl].
    destruct (suppress _ _ _ _ _ _) as [[all l]|z]; reflexivity.
  Qed.
  Lemma partial_shift : forall s i kw g u, partial_enter W (shift u s) i kw g = (shift u (fst (partial_enter W s i kw g)), snd (partial_enter W s i kw g)).
  Proof. intros s i kw g u; unfold partial_enter; rewrite edit_shift; cbn [fst]; destruct g; [apply supp_shift|reflexivity]. Qed.
  Lemma enter_shift : forall s i u, enter W (shift u s) i = match enter W s i with Some a => Some (shift u a) | None => None end.
  Proof. intros s i u; unfold enter; change (get_fin (shift u s) i) with (get_fin s i); destruct (f_used _ || f_entered _); reflexivity. Qed.
  Lemma pop_shift : forall s u, pop (shift u s) = match pop s with Some (a, i) => Some (shift u a, i) | None => None end.
  Proof. intros s u; unfold pop; cbn; destruct (rstack s) as [[|i [|j r]]|]; reflexivity. Qed.
  Lemma shift_shift : forall u v s, shift u (shift v s) = shift u s. Proof. reflexivity. Qed.

  (** The result of a program is the same, up to the order of unlog in force afterwards. *)
  Lemma exec_shift : forall q s u, both_on (unl s) u -> exists u', both_on (unl (fst (exec W q s))) u' /\
    exec W q (shift u s) = (shift u' (fst (exec W q s)), snd (exec W q s)).
  Proof.
    induction q as [o|p a kw body IHb k IHk|full body IHb k IHk|h body IHb k IHk|args kw k IHk|f k IHk|args kw k IHk
                    |i k IHk|i cs k IHk|i args kw k IHk|i body IHb k IHk|kw supp body IHb k IHk];
      intros s u B; cbn [exec].
    - exists u; split; [exact B|reflexivity].
    - change (ncall (shift u s)) with (ncall s).
      set (s0 := set_msg (emit (bump_c s) (EStart (ncall s))) None).
      change (set_msg (emit (bump_c (shift u s)) (EStart (ncall s))) None) with (shift u s0).
      destruct (IHb s0 u B) as [u1 [B1 E1]]; rewrite E1; clear E1; destruct (exec W body s0) as [s1 o1]; cbn [fst snd] in *.
      rewrite (after_shift _ _ _ _ _ _ _ B1); destruct (after W p a kw (ncall s) o1 s1) as [s2 o2] eqn:Ea; cbn [fst snd].
      assert (U : unl s2 = unl s1) by (apply (after_frame W _ _ _ _ _ _ _ _ Ea)).
      apply (IHk o2 (emit s2 (EEnd (ncall s) o2)) u1); cbn; rewrite U; exact B1.
    - set (s0 := set_unl (emit s (EOff full)) (Some full)).
      change (set_unl (emit (shift u s) (EOff full)) (Some full)) with s0.
      destruct (exec W body s0) as [s1 o1].
      destruct (IHk o1 (set_unl (emit s1 EOn) None) None (or_introl eq_refl)) as [u2 [B2 E2]].
      change (shift None (set_unl (emit s1 EOn) None)) with (set_unl (emit s1 EOn) None) in E2; eauto.
    - destruct (IHb s u B) as [u1 [B1 E1]]; rewrite E1; clear E1; destruct (exec W body s) as [s1 o1]; cbn [fst snd] in *.
      apply (IHk _ s1 u1 B1).
    - cbn [cf shift set_unl]; destruct (message_fields (cf s) (ce W) args kw) as [[f|]|x].
      + apply (IHk _ (set_msg (emit s (EMsg f)) (Some f)) u B).
      + apply (IHk _ s u B).
      + apply (IHk _ (bump_e s) u B).
    - apply (IHk (set_cf s (f (cf s))) u B).
    - unfold new_fin; cbn [cf shift set_unl]; destruct (convert_arguments (cf s) args kw) as [d|x]; cbn [bindR].
      + apply (IHk _ (set_fins s (fins s ++ [mkFin args kw d [] false false false])) u B).
      + apply (IHk _ (bump_e s) u B).
    - change (get_fin (shift u s) i) with (get_fin s i); destruct (f_used (get_fin s i)); [apply (IHk s u B)|].
      set (y := mkFin _ _ _ _ _ _ _); change (put_fin (shift u s) i y) with (shift u (put_fin s i y)).
      rewrite (manual_shift _ _ _ (put_fin s i y) u B); cbn [fst].
      apply IHk; pose proof (manual_frame W KManual (f_args (get_fin s i)) (f_kw (get_fin s i)) (put_fin s i y)) as F; cbv zeta in F.
      destruct F as [_ [_ [_ [_ [_ [-> _]]]]]]; exact B.
    - rewrite supp_shift; pose proof (supp_frame W s i cs) as F; cbv zeta in F; destruct (add_supp W s i cs) as [s1 r]; cbn [fst snd] in *.
      assert (B1 : both_on (unl s1) u) by (destruct F as [_ [_ [_ [_ [-> _]]]]]; exact B).
      destruct r; cbn; [apply (IHk _ s1 u B1)|apply (IHk _ (bump_e s1) u B1)].
    - rewrite edit_shift; pose proof (edit_frame s i args kw) as F; cbv zeta in F; destruct (edit s i args kw) as [s1 r]; cbn [fst snd] in *.
      assert (B1 : both_on (unl s1) u) by (destruct F as [_ [_ [_ [_ [-> _]]]]]; exact B).
      destruct r; cbn; [apply (IHk _ s1 u B1)|apply (IHk _ (bump_e s1) u B1)].
    - rewrite enter_shift; destruct (enter W s i) as [s1|] eqn:E0; [|apply (IHk _ (bump_e s) u B)].
      assert (B0 : both_on (unl s1) u) by (unfold enter in E0; destruct (f_used _ || f_entered _); [discriminate|]; injection E0 as <-; exact B).
      destruct (IHb s1 u B0) as [u1 [B1 E1]]; rewrite E1; clear E1; destruct (exec W body s1) as [s2 o1]; cbn [fst snd] in *.
      rewrite (leave_shift _ _ _ _ B1); destruct (leave W s2 i o1) as [s3 o2] eqn:Lv; cbn [fst snd].
      apply IHk; destruct (leave_frame W _ _ _ _ _ Lv) as [_ [_ [_ [-> _]]]]; exact B1.
    - cbv zeta; change (fins (shift u s)) with (fins s); set (i := length (fins s)).
      set (s1 := push (set_fins s _) i); change (push (set_fins (shift u s) (fins s ++ [mkFin [] [] [] [] false false false])) i) with (shift u s1).
      rewrite enter_shift; destruct (enter W s1 i) as [s2|] eqn:E0; [|apply (IHk _ (bump_e s1) u B)].
      assert (B0 : both_on (unl s2) u) by (unfold enter in E0; destruct (f_used _ || f_entered _); [discriminate|]; injection E0 as <-; exact B).
      rewrite partial_shift; pose proof (partial_frame W s2 i kw supp) as F; cbv zeta in F; destruct (partial_enter W s2 i kw supp) as [s4 r]; cbn [fst snd] in *.
      assert (B4 : both_on (unl s4) u) by (destruct F as [_ [_ [_ [_ [-> _]]]]]; exact B0).
      destruct r as [[]|z]; [|apply (IHk _ (bump_e s4) u B4)].
      destruct (IHb i s4 u B4) as [u1 [B1 E1]]; rewrite E1; clear E1; destruct (exec W (body i) s4) as [s5 o1]; cbn [fst snd] in *.
      rewrite pop_shift; destruct (pop s5) as [[s6 j]|] eqn:Po; [|apply (IHk _ (bump_e s5) u1 B1)].
      assert (B6 : both_on (unl s6) u1) by (unfold pop in Po; destruct (rstack s5) as [[|z r]|]; try discriminate; injection Po as <- _; exact B1).
      rewrite (leave_shift _ _ _ _ B6); destruct (leave W s6 j o1) as [s7 o2] eqn:Lv; cbn [fst snd].
      apply IHk; destruct (leave_frame W _ _ _ _ _ Lv) as [_ [_ [_ [-> _]]]]; exact B6.
  Qed.
End Sim.
