(** The nesting structure of executions: the stack of the router, one record per call, one record per block. *)
From Coq Require Import Relations Lia.
From Verif Require Import Base Handle_Model Handle_Spec Handle_Proofs Supp_Model Call_Model Call_Spec Call_Proofs Call_Inv.
Local Open Scope string_scope.
Local Open Scope list_scope.

Lemma supps_any : forall q, supps (fun _ => True) q.
Proof. induction q; cbn [supps]; auto. Qed.

Section Struct.
  Variable W : cenv.

  (** Parts of the state that the pieces of the wrapper leave alone. *)
  Lemma log_normal_frame : forall p a kw n v s, let s1 := fst (log_normal W p a kw n v s) in
    rstack s1 = rstack s /\ fins s1 = fins s /\ ncall s1 = ncall s /\ nexte s1 = nexte s /\ cf s1 = cf s /\ unl s1 = unl s /\ marks s1 = marks s.
  Proof.
    intros p a kw n v s; cbv zeta; destruct (log_normal W p a kw n v s) as [s1 r] eqn:E; cbn [fst].
    destruct (log_normal_cases W _ _ _ _ _ _ _ _ E) as [[-> _]|[[_ [-> _]]|[_ [_ [l [rr [iv [_ [_ [_ [_ ->]]]]]]]]]]]; cbn; auto 10.
  Qed.
  Lemma log_exception_frame : forall p a kw n e s, let s1 := fst (log_exception W p a kw n e s) in
    rstack s1 = rstack s /\ fins s1 = fins s /\ ncall s1 = ncall s /\ nexte s1 = nexte s /\ cf s1 = cf s /\ unl s1 = unl s.
  Proof.
    intros p a kw n e s; cbv zeta; destruct (log_exception W p a kw n e s) as [s1 r] eqn:E; cbn [fst].
    destruct (log_exception_cases W _ _ _ _ _ _ _ _ E) as [[-> _]|[[_ [_ [-> _]]]|[_ [_ [_ [_ [t [iv [_ [_ ->]]]]]]]]]]; cbn; auto 10.
  Qed.
  Lemma manual_frame : forall k args kw s, let s1 := fst (manual W k args kw s) in
    rstack s1 = rstack s /\ fins s1 = fins s /\ ncall s1 = ncall s /\ nexte s1 = nexte s /\ cf s1 = cf s /\ unl s1 = unl s /\ marks s1 = marks s /\ msg s1 = msg s.
  Proof.
    intros k args kw s; cbv zeta; destruct (manual W k args kw s) as [s1 r] eqn:E; cbn [fst].
    destruct (manual_cases W _ _ _ _ _ _ E) as [[-> _]|[_ [_ [f [_ ->]]]]]; cbn; auto 10.
  Qed.
  Lemma edit_frame : forall s i args kw, let s1 := fst (edit s i args kw) in
    rstack s1 = rstack s /\ ncall s1 = ncall s /\ nexte s1 = nexte s /\ cf s1 = cf s /\ unl s1 = unl s /\ tr s1 = tr s /\ marks s1 = marks s /\ msg s1 = msg s.
  Proof.
    intros s i args kw; cbv zeta; unfold edit; destruct (f_entered (get_fin s i)).
    - destruct (convert_arguments (cf s) args kw); cbn; auto 10.
    - destruct (negb (Nat.eqb (length args) 1) && negb (Nat.eqb (length kw) 0)); [cbn; auto 10|].
      destruct args; [cbn; auto 10|]; destruct (f_used (get_fin s i)); cbn; auto 10.
  Qed.

  Lemma supp_frame : forall s i vs, let s1 := fst (add_supp W s i vs) in
    rstack s1 = rstack s /\ ncall s1 = ncall s /\ nexte s1 = nexte s /\ cf s1 = cf s /\ unl s1 = unl s /\ tr s1 = tr s /\ marks s1 = marks s /\ msg s1 = msg s.
  Proof. intros s i vs; cbv zeta; unfold add_supp; destruct (suppress _ _ _ _ _ _) as [[all l]|z]; cbn; auto 10. Qed.
  Lemma partial_frame : forall s i kw supp, let s1 := fst (partial_enter W s i kw supp) in
    rstack s1 = rstack s /\ ncall s1 = ncall s /\ nexte s1 = nexte s /\ cf s1 = cf s /\ unl s1 = unl s /\ tr s1 = tr s /\ marks s1 = marks s /\ msg s1 = msg s.
  Proof.
    intros s i kw supp; cbv zeta; unfold partial_enter; pose proof (edit_frame s i [] kw) as F; cbv zeta in F; destruct supp; [|exact F].
    pose proof (supp_frame (fst (edit s i [] kw)) i l) as G; cbv zeta in G.
    destruct F as [F1 [F2 [F3 [F4 [F5 [F6 [F7 F8]]]]]]], G as [G1 [G2 [G3 [G4 [G5 [G6 [G7 G8]]]]]]].
    repeat split; congruence.
  Qed.

  (** A generic way to go through an execution: a transitive relation on states that holds for the pieces. *)
  Section Pieces.
    Variable P : st -> st -> Prop.
    Variable G : option (list val) -> Prop.
    Hypothesis Prefl : forall s, P s s.
    Hypothesis Ptrans : forall a b c, P a b -> P b c -> P a c.
    Hypothesis Pbump : forall s, P s (bump_e s).
    Hypothesis Pmsg : forall s f, P s (set_msg (emit s (EMsg f)) (Some f)).
    Hypothesis Pconf : forall s c, P s (set_cf s c).
    Hypothesis Pnew : forall s x, f_used x = false -> P s (set_fins s (fins s ++ [x])).
    Hypothesis Psupp : forall s i vs, P s (fst (add_supp W s i vs)).
    Hypothesis Pedit : forall s i args kw, P s (fst (edit s i args kw)).
    Hypothesis Pdrop : forall s i, let x := get_fin s i in
      f_used x = false -> P s (put_fin s i (mkFin (f_args x) (f_kw x) (f_data x) (f_supp x) (f_all x) true (f_entered x))).
    Hypothesis Pman : forall s args kw, P s (fst (manual W KManual args kw s)).
    Hypothesis Plogged : forall s s1 s2 p a kw o o',
      P (set_msg (emit (bump_c s) (EStart (ncall s))) None) s1 -> after W p a kw (ncall s) o s1 = (s2, o') -> P s (emit s2 (EEnd (ncall s) o')).
    Hypothesis Punlog : forall s s1 full, P (set_unl (emit s (EOff full)) (Some full)) s1 -> P s (set_unl (emit s1 EOn) None).
    Hypothesis Pwith : forall s i s1 s2 s3 o o', enter W s i = Some s1 -> P s1 s2 -> leave W s2 i o = (s3, o') -> P s s3.
    Hypothesis Pwithr : forall s kw supp s1 s2 s4 s5 s6 j s7 o o',
      let i := length (fins s) in
      s1 = push (set_fins s (fins s ++ [mkFin [] [] [] [] false false false])) i ->
      enter W s1 i = Some s2 ->
      partial_enter W s2 i kw supp = (s4, Ok tt) ->
      P s4 s5 ->
      pop s5 = Some (s6, j) -> leave W s6 j o = (s7, o') -> P s s7.
    Hypothesis Pwithr_fail : forall s kw supp s1 s2 s4 z, G supp ->
      let i := length (fins s) in
      s1 = push (set_fins s (fins s ++ [mkFin [] [] [] [] false false false])) i ->
      enter W s1 i = Some s2 ->
      partial_enter W s2 i kw supp = (s4, Err z) -> P s s4.
    Hypothesis Pwithr_bad : forall s kw supp s1 s2 s4 s5,
      let i := length (fins s) in
      s1 = push (set_fins s (fins s ++ [mkFin [] [] [] [] false false false])) i ->
      enter W s1 i = Some s2 ->
      partial_enter W s2 i kw supp = (s4, Ok tt) ->
      P s4 s5 -> pop s5 = None -> P s s5.

    Lemma fresh_enter : forall s, let i := length (fins s) in
      exists s2, enter W (push (set_fins s (fins s ++ [mkFin [] [] [] [] false false false])) i) i = Some s2.
    Proof.
      intros s i; unfold enter, get_fin; cbn [fins push set_stack set_fins].
      unfold i; rewrite app_nth2, Nat.sub_diag by lia; cbn; eauto.
    Qed.

    Lemma exec_pieces : forall q, supps G q -> forall s s' o, exec W q s = (s', o) -> P s s'.
    Proof.
      induction q as [o|p a kw body IHb k IHk|full body IHb k IHk|h body IHb k IHk|args kw k IHk|f k IHk|args kw k IHk
                      |i k IHk|i cs k IHk|i args kw k IHk|i body IHb k IHk|kw supp body IHb k IHk];
        intros C s s' o' H; cbn [exec] in H; cbn [supps] in C.
      - injection H as <- <-; apply Prefl.
      - destruct C as [Cb Ck]; destruct (exec W body _) as [s1 o1] eqn:E1; destruct (after W p a kw (ncall s) o1 s1) as [s2 o2] eqn:E2.
        eapply Ptrans; [|exact (IHk _ (Ck _) _ _ _ H)]; exact (Plogged _ _ _ _ _ _ _ _ (IHb Cb _ _ _ E1) E2).
      - destruct C as [Cb Ck]; destruct (exec W body _) as [s1 o1] eqn:E1.
        eapply Ptrans; [|exact (IHk _ (Ck _) _ _ _ H)]; exact (Punlog _ _ _ (IHb Cb _ _ _ E1)).
      - destruct C as [Cb Ck]; destruct (exec W body _) as [s1 o1] eqn:E1.
        eapply Ptrans; [exact (IHb Cb _ _ _ E1)|exact (IHk _ (Ck _) _ _ _ H)].
      - destruct (message_fields (cf s) (ce W) args kw) as [[f|]|x] eqn:E.
        + eapply Ptrans; [|exact (IHk _ (C _) _ _ _ H)]; apply Pmsg.
        + exact (IHk _ (C _) _ _ _ H).
        + cbn in H; eapply Ptrans; [|exact (IHk _ (C _) _ _ _ H)]; apply Pbump.
      - eapply Ptrans; [|exact (IHk C _ _ _ H)]; apply Pconf.
      - unfold new_fin in H; destruct (convert_arguments (cf s) args kw) as [d|x]; cbn [bindR] in H.
        + eapply Ptrans; [|exact (IHk _ (C _) _ _ _ H)]; apply Pnew; reflexivity.
        + eapply Ptrans; [|exact (IHk _ (C _) _ _ _ H)]; apply Pbump.
      - destruct (f_used (get_fin s i)) eqn:U; [exact (IHk C _ _ _ H)|].
        eapply Ptrans; [|exact (IHk C _ _ _ H)]; eapply Ptrans; [|apply Pman]; apply Pdrop; exact U.
      - pose proof (Psupp s i cs) as A; destruct (add_supp W s i cs) as [s1 r]; cbn [fst] in A.
        destruct r; cbn in H.
        + eapply Ptrans; [exact A|exact (IHk _ (C _) _ _ _ H)].
        + eapply Ptrans; [exact A|]; eapply Ptrans; [apply Pbump|exact (IHk _ (C _) _ _ _ H)].
      - pose proof (Pedit s i args kw) as A; destruct (edit s i args kw) as [s1 r]; cbn [fst] in A.
        destruct r; cbn in H.
        + eapply Ptrans; [exact A|exact (IHk _ (C _) _ _ _ H)].
        + eapply Ptrans; [exact A|]; eapply Ptrans; [apply Pbump|exact (IHk _ (C _) _ _ _ H)].
      - destruct C as [Cb Ck]; destruct (enter W s i) as [s1|] eqn:E0.
        + destruct (exec W body s1) as [s2 o1] eqn:E1; destruct (leave W s2 i o1) as [s3 o2] eqn:E2.
          eapply Ptrans; [|exact (IHk _ (Ck _) _ _ _ H)]; exact (Pwith _ _ _ _ _ _ _ E0 (IHb Cb _ _ _ E1) E2).
        + cbn in H; eapply Ptrans; [|exact (IHk _ (Ck _) _ _ _ H)]; apply Pbump.
      - destruct C as [Cg [Cb Ck]]; cbv zeta in H.
        destruct (fresh_enter s) as [s2 E0]; rewrite E0 in H.
        destruct (partial_enter W s2 (length (fins s)) kw supp) as [s4 [[]|z]] eqn:Ep.
        2: { cbn in H; eapply Ptrans; [|exact (IHk _ (Ck _) _ _ _ H)]; eapply Ptrans; [|apply Pbump].
             exact (Pwithr_fail s kw supp _ _ _ _ Cg eq_refl E0 Ep). }
        destruct (exec W (body (length (fins s))) _) as [s5 o1] eqn:E1.
        destruct (pop s5) as [[s6 j]|] eqn:E2.
        + destruct (leave W s6 j o1) as [s7 o2] eqn:E3.
          eapply Ptrans; [|exact (IHk _ (Ck _) _ _ _ H)].
          exact (Pwithr s kw supp _ _ _ _ _ _ _ _ _ eq_refl E0 Ep (IHb _ (Cb _) _ _ _ E1) E2 E3).
        + cbn in H; eapply Ptrans; [|exact (IHk _ (Ck _) _ _ _ H)]; eapply Ptrans; [|apply Pbump].
          exact (Pwithr_bad s kw supp _ _ _ _ eq_refl E0 Ep (IHb _ (Cb _) _ _ _ E1) E2).
    Qed.
  End Pieces.

  Lemma raise_frame : forall s x s1 o, raise_ W s x = (s1, o) -> s1 = bump_e s.
  Proof. intros s x s1 o H; injection H as <- _; reflexivity. Qed.

  Lemma after_frame : forall p a kw n o s s' o', after W p a kw n o s = (s', o') ->
    rstack s' = rstack s /\ fins s' = fins s /\ ncall s' = ncall s /\ cf s' = cf s /\ unl s' = unl s.
  Proof.
    intros p a kw n o s s' o' H; unfold after in H; destruct o as [v|e].
    - pose proof (log_normal_frame p a kw n v s) as F; destruct (log_normal W p a kw n v s) as [s1 r]; cbn [fst] in F; cbv zeta in F.
      destruct r; cbn in H; injection H as <- <-; cbn; tauto.
    - destruct (e_exc e); [|injection H as <- <-; auto].
      pose proof (log_exception_frame p a kw n e s) as F; destruct (log_exception W p a kw n e s) as [s1 r]; cbn [fst] in F; cbv zeta in F.
      destruct r; [destruct (p_all p || is_suppressed (hi W) (cf s1) e (p_supp p)); injection H as <- <-; tauto|cbn in H; injection H as <- <-; cbn; tauto].
  Qed.

  Lemma leave_frame : forall i o s s' o', leave W s i o = (s', o') ->
    rstack s' = rstack s /\ ncall s' = ncall s /\ cf s' = cf s /\ unl s' = unl s /\ marks s' = marks s /\ msg s' = msg s /\
    exists d, fins s' = replace (fins s) i (mkFin (f_args (get_fin s i)) (f_kw (get_fin s i)) d (f_supp (get_fin s i)) (f_all (get_fin s i)) (f_used (get_fin s i)) (f_entered (get_fin s i)))
      \/ fins s' = fins s.
  Proof.
    intros i o s s' o' H; unfold leave in H.
    set (d0 := match o with ORet _ => _ | ORaise e => _ end) in H; destruct d0 as [d|z].
    2: { cbn in H; injection H as <- <-; cbn; repeat split; exists []; right; reflexivity. }
    cbv zeta in H; set (x := mkFin _ _ _ _ _ _ _) in H.
    pose proof (manual_frame (KBlock i) [] (fset d "time_of_work" (dur W)) (put_fin s i x)) as F.
    destruct (manual W (KBlock i) [] (fset d "time_of_work" (dur W)) (put_fin s i x)) as [s2 r]; cbn [fst] in F; cbv zeta in F.
    cbn in F; destruct F as [F1 [F2 [F3 [F4 [F5 [F6 [F7 F8]]]]]]].
    assert (G : rstack s2 = rstack s /\ ncall s2 = ncall s /\ cf s2 = cf s /\ unl s2 = unl s /\ marks s2 = marks s /\ msg s2 = msg s /\
      exists d, fins s2 = replace (fins s) i (mkFin (f_args (get_fin s i)) (f_kw (get_fin s i)) d (f_supp (get_fin s i)) (f_all (get_fin s i)) (f_used (get_fin s i)) (f_entered (get_fin s i)))
      \/ fins s2 = fins s).
    { repeat split; auto; exists (fset d "time_of_work" (dur W)); left; exact F2. }
    destruct r as [t|z].
    - destruct o as [v|e]; [injection H as <- <-; exact G|].
      destruct (f_all (get_fin s i)); [injection H as <- <-; exact G|].
      destruct (match f_supp (get_fin s i) with [] => _ | _ => _ end); injection H as <- <-; exact G.
    - cbn in H; injection H as <- <-; exact G.
  Qed.

  (** A block of the router is opened. *)
  Lemma open_frame : forall s kw supp s1 s2 s4 r, let i := length (fins s) in
    s1 = push (set_fins s (fins s ++ [mkFin [] [] [] [] false false false])) i -> enter W s1 i = Some s2 ->
    partial_enter W s2 i kw supp = (s4, r) ->
    rstack s4 = Some (match rstack s with None => [i] | Some l => i :: l end) /\ tr s4 = tr s /\ ncall s4 = ncall s.
  Proof.
    intros s kw supp s1 s2 s4 r i E1 E2 Ep.
    pose proof (partial_frame s2 i kw supp) as F; cbv zeta in F; rewrite Ep in F; cbn [fst] in F.
    unfold enter in E2; destruct (f_used _ || f_entered _); [discriminate|]; injection E2 as <-; rewrite E1 in F.
    destruct F as [F1 [F2 [_ [_ [_ [F3 _]]]]]]; rewrite F1, F2, F3; auto.
  Qed.

  (** The classes given to a block are accepted whatever the settings. *)
  Definition good (g : option (list val)) : Prop := forall c all l vs, g = Some vs -> exists r, suppress (hi W) (exc W) c all l vs = Ok r.
  Lemma good_partial : forall s i kw g s4 z, good g -> partial_enter W s i kw g <> (s4, Err z).
  Proof.
    intros s i kw g s4 z Hg E; unfold partial_enter in E; destruct g as [vs|]; [|discriminate].
    unfold add_supp in E; match type of E with context [suppress ?h ?x ?c ?a ?l vs] => destruct (Hg c a l vs eq_refl) as [[b m] R]; rewrite R in E end; discriminate.
  Qed.

  (** The stack of the router is what it was after every program. *)
  Lemma rstack_kept : forall q, supps good q -> forall s s' o, exec W q s = (s', o) -> rstack s <> Some [] -> rstack s' = rstack s.
  Proof.
    intros q Hg s s' o H.
    apply (exec_pieces (fun s s' => rstack s <> Some [] -> rstack s' = rstack s) good) with (1 := fun s _ => eq_refl) (q := q) (o := o); try exact H; try exact Hg; clear.
    - intros a b c H1 H2 N; rewrite (H2 ltac:(rewrite (H1 N); exact N)); exact (H1 N).
    - reflexivity.
    - reflexivity.
    - reflexivity.
    - reflexivity.
    - intros s i vs _; apply (supp_frame s i vs).
    - intros s i args kw _; apply (edit_frame s i args kw).
    - reflexivity.
    - intros s args kw _; apply (manual_frame KManual args kw s).
    - intros s s1 s2 p a kw o o' H E N; cbn; rewrite (proj1 (after_frame _ _ _ _ _ _ _ _ E)); apply H; exact N.
    - intros s s1 full H N; cbn; apply H; exact N.
    - intros s i s1 s2 s3 o o' E H L N; rewrite (proj1 (leave_frame _ _ _ _ _ L)).
      unfold enter in E; destruct (f_used _ || f_entered _); [discriminate|]; injection E as <-; exact (H N).
    - intros s kw supp s1 s2 s4 s5 s6 j s7 o o' i E1 E2 Ep H Po L N.
      destruct (open_frame s kw supp s1 s2 s4 _ E1 E2 Ep) as [Q _].
      rewrite Q in H; rewrite (proj1 (leave_frame _ _ _ _ _ L)).
      unfold pop in Po; rewrite H in Po by (destruct (rstack s); discriminate).
      destruct (rstack s) as [[|y r]|]; [contradiction| |]; injection Po as <- _; reflexivity.
    - intros s kw supp s1 s2 s4 z Hg i E1 E2 Ep N; destruct (good_partial _ _ _ _ _ _ Hg Ep).
    - intros s kw supp s1 s2 s4 s5 i E1 E2 Ep H Po N; exfalso.
      destruct (open_frame s kw supp s1 s2 s4 _ E1 E2 Ep) as [Q _].
      rewrite Q in H; unfold pop in Po; rewrite H in Po by (destruct (rstack s); discriminate).
      destruct (rstack s) as [[|y r]|]; discriminate.
  Qed.

  (** One record per logged call. *)
  Definition window (a b n : nat) : nat := if Nat.leb a n && Nat.ltb n b then 1 else 0.
  Definition per_call (s s' : st) : Prop :=
    exists new, tr s' = tr s ++ new /\ ncall s <= ncall s' /\ forall n, count (of_call n) new <= window (ncall s) (ncall s') n.
  Lemma count_app : forall q a b, count q (a ++ b) = count q a + count q b.
  Proof. intros q a b; unfold count; rewrite filter_app, app_length; reflexivity. Qed.
  Lemma window_join : forall a b c n, a <= b -> b <= c -> window a b n + window b c n <= window a c n.
  Proof.
    intros a b c n H1 H2; unfold window.
    destruct (Nat.leb_spec a n), (Nat.ltb_spec n b), (Nat.leb_spec b n), (Nat.ltb_spec n c); cbn; lia.
  Qed.
  Lemma per_call_trans : forall a b c, per_call a b -> per_call b c -> per_call a c.
  Proof.
    intros a b c [n1 [T1 [L1 C1]]] [n2 [T2 [L2 C2]]]; exists (n1 ++ n2); split; [rewrite T2, T1, app_assoc; reflexivity|split; [lia|]].
    intros n; rewrite count_app; pose proof (C1 n); pose proof (C2 n); pose proof (window_join _ _ _ n L1 L2); lia.
  Qed.
  Lemma per_call_quiet : forall s s' new, tr s' = tr s ++ new -> ncall s' = ncall s -> (forall n, count (of_call n) new = 0) -> per_call s s'.
  Proof. intros s s' new T N C; exists new; split; [exact T|split; [lia|]]; intros n; rewrite C; lia. Qed.

  Lemma after_events : forall p a kw n o s s' o', after W p a kw n o s = (s', o') ->
    exists evs, tr s' = tr s ++ evs /\ (evs = [] \/ evs = [ELost n] \/ (exists f v, o = ORet v /\ evs = [ERec (KNorm n) f]) \/ (exists e f, o = ORaise e /\ evs = [ERec (KExc n e) f])).
  Proof.
    intros p a kw n o s s' o' H; unfold after in H; destruct o as [v|e].
    - destruct (log_normal W p a kw n v s) as [s1 r] eqn:E.
      assert (T : tr s' = tr s1) by (destruct r; cbn in H; injection H as <- _; reflexivity).
      destruct (log_normal_cases W _ _ _ _ _ _ _ _ E) as [[-> _]|[[_ [-> _]]|[_ [_ [l [rr [iv [_ [_ [_ [_ ->]]]]]]]]]]].
      + exists []; rewrite app_nil_r; auto.
      + exists [ELost n]; rewrite T; auto.
      + eexists [_]; rewrite T; split; [reflexivity|]; right; right; left; eauto.
    - destruct (e_exc e); [|injection H as <- <-; exists []; rewrite app_nil_r; auto].
      destruct (log_exception W p a kw n e s) as [s1 r] eqn:E.
      assert (T : tr s' = tr s1) by (destruct r; [destruct (p_all p || is_suppressed (hi W) (cf s1) e (p_supp p))|cbn in H]; injection H as <- _; reflexivity).
      destruct (log_exception_cases W _ _ _ _ _ _ _ _ E) as [[-> _]|[[_ [_ [-> _]]]|[_ [_ [_ [_ [t [iv [_ [_ ->]]]]]]]]]].
      + exists []; rewrite app_nil_r; auto.
      + exists []; rewrite app_nil_r; auto.
      + eexists [_]; rewrite T; split; [reflexivity|]; right; right; right; eauto.
  Qed.
  Lemma manual_events : forall k args kw s s1 r, manual W k args kw s = (s1, r) -> exists evs, tr s1 = tr s ++ evs /\ (evs = [] \/ exists f, evs = [ERec k f]).
  Proof.
    intros k args kw s s1 r H; destruct (manual_cases W _ _ _ _ _ _ H) as [[-> _]|[_ [_ [f [_ ->]]]]].
    - exists []; rewrite app_nil_r; auto.
    - exists [ERec k f]; split; [reflexivity|eauto].
  Qed.
  Lemma leave_events : forall i o s s' o', leave W s i o = (s', o') -> exists evs, tr s' = tr s ++ evs /\ (evs = [] \/ exists f, evs = [ERec (KBlock i) f]).
  Proof.
    intros i o s s' o' H; unfold leave in H.
    set (d0 := match o with ORet _ => _ | ORaise e => _ end) in H; destruct d0 as [d|z].
    2: { cbn in H; injection H as <- <-; exists []; rewrite app_nil_r; auto. }
    cbv zeta in H; set (x := mkFin _ _ _ _ _ _ _) in H.
    destruct (manual W (KBlock i) [] (fset d "time_of_work" (dur W)) (put_fin s i x)) as [s2 r] eqn:E.
    destruct (manual_events _ _ _ _ _ _ E) as [evs [T C]]; cbn in T.
    assert (Q : tr s' = tr s2).
    { destruct r as [t|z].
      - destruct o as [v|e]; [injection H as <- <-; reflexivity|].
        destruct (f_all (get_fin s i)); [injection H as <- <-; reflexivity|].
        destruct (match f_supp (get_fin s i) with [] => _ | _ => _ end); injection H as <- <-; reflexivity.
      - cbn in H; injection H as <- <-; reflexivity. }
    exists evs; rewrite Q; auto.
  Qed.

  Ltac quiet := eapply per_call_quiet; [symmetry; apply app_nil_r|reflexivity|reflexivity].

  Lemma exec_per_call : forall q s s' o, exec W q s = (s', o) -> per_call s s'.
  Proof.
    intros q s s' o H; apply (exec_pieces per_call (fun _ => True)) with (q := q) (o := o); try exact H; try apply supps_any; clear.
    - intros s; quiet.
    - exact per_call_trans.
    - intros s; quiet.
    - intros s f; eapply per_call_quiet; [reflexivity|reflexivity|reflexivity].
    - intros s c; quiet.
    - intros s x _; quiet.
    - intros s i vs; pose proof (supp_frame s i vs) as F; cbv zeta in F.
      eapply (per_call_quiet _ _ []); [rewrite app_nil_r; apply F|apply F|reflexivity].
    - intros s i args kw; pose proof (edit_frame s i args kw) as F; cbv zeta in F.
      eapply (per_call_quiet _ _ []); [rewrite app_nil_r; apply F|apply F|reflexivity].
    - intros s i x _; quiet.
    - intros s args kw; destruct (manual W KManual args kw s) as [s1 r] eqn:E; cbn [fst].
      destruct (manual_events _ _ _ _ _ _ E) as [evs [T C]]; pose proof (manual_frame KManual args kw s) as F; rewrite E in F; cbv zeta in F; cbn [fst] in F.
      eapply per_call_quiet; [exact T|apply F|]; intros n; destruct C as [->|[f ->]]; reflexivity.
    - intros s s1 s2 p a kw o o' [new [T [L C]]] A; cbn in T, L, C.
      destruct (after_events _ _ _ _ _ _ _ _ A) as [evs [T2 Q]]; pose proof (after_frame _ _ _ _ _ _ _ _ A) as F.
      exists ([EStart (ncall s)] ++ new ++ evs ++ [EEnd (ncall s) o']); cbn [tr emit ncall].
      split; [rewrite T2, T, <- !app_assoc; reflexivity|]. destruct F as [_ [_ [F _]]]; rewrite F; split; [lia|].
      intros n; rewrite !count_app; change (count (of_call n) [EStart (ncall s)]) with 0; change (count (of_call n) [EEnd (ncall s) o']) with 0.
      pose proof (C n) as Cn; unfold window in *.
      assert (Ev : count (of_call n) evs <= if Nat.eqb n (ncall s) then 1 else 0).
      { destruct Q as [->|[->|[[f [v [_ ->]]]|[e [f [_ ->]]]]]]; [cbn; lia|cbn; lia| |]; unfold count; cbn; destruct (Nat.eqb n (ncall s)); cbn; lia. }
      destruct (Nat.eqb_spec n (ncall s)) as [->|Ne].
      + replace (Nat.leb (ncall s) (ncall s)) with true by (symmetry; apply Nat.leb_refl).
        replace (Nat.ltb (ncall s) (ncall s1)) with true by (symmetry; apply Nat.ltb_lt; lia).
        replace (Nat.leb (S (ncall s)) (ncall s)) with false in Cn by (symmetry; apply Nat.leb_gt; lia).
        cbn in *; lia.
      + destruct (Nat.leb_spec (S (ncall s)) n), (Nat.leb_spec (ncall s) n), (Nat.ltb_spec n (ncall s1)); cbn [andb] in *; lia.
    - intros s s1 full [new [T [L C]]]; cbn in T, L, C.
      exists ([EOff full] ++ new ++ [EOn]); cbn [tr set_unl emit ncall]; split; [rewrite T, <- !app_assoc; reflexivity|split; [exact L|]].
      intros n; rewrite !count_app; pose proof (C n); cbn; lia.
    - intros s i s1 s2 s3 o o' E [new [T [L C]]] Lv.
      unfold enter in E; destruct (f_used _ || f_entered _); [discriminate|]; injection E as <-; cbn in T, L, C.
      destruct (leave_events _ _ _ _ _ Lv) as [evs [T2 Q]]; pose proof (leave_frame _ _ _ _ _ Lv) as F.
      exists (new ++ evs); split; [rewrite T2, T, app_assoc; reflexivity|]; destruct F as [_ [F _]]; rewrite F; split; [exact L|].
      intros n; rewrite count_app; destruct Q as [->|[f ->]]; pose proof (C n); cbn; lia.
    - intros s kw supp s1 s2 s4 s5 s6 j s7 o o' i E1 E2 Ep [new [T [L C]]] Po Lv.
      destruct (open_frame s kw supp s1 s2 s4 _ E1 E2 Ep) as [_ [Q1 Q2]]; rewrite Q1 in T; rewrite Q2 in L, C.
      destruct (leave_events _ _ _ _ _ Lv) as [evs [T2 Q]]; pose proof (leave_frame _ _ _ _ _ Lv) as F.
      assert (P6 : tr s6 = tr s5 /\ ncall s6 = ncall s5) by (unfold pop in Po; destruct (rstack s5) as [[|y r]|]; try discriminate; injection Po as <- _; auto).
      destruct P6 as [P1 P2]; exists (new ++ evs); split; [rewrite T2, P1, T, app_assoc; reflexivity|]; destruct F as [_ [F _]]; rewrite F, P2; split; [exact L|].
      intros n; rewrite count_app; destruct Q as [->|[f ->]]; pose proof (C n); cbn; lia.
    - intros s kw supp s1 s2 s4 z _ i E1 E2 Ep.
      destruct (open_frame s kw supp s1 s2 s4 _ E1 E2 Ep) as [_ [Q1 Q2]].
      eapply (per_call_quiet _ _ []); [rewrite app_nil_r; exact Q1|exact Q2|reflexivity].
    - intros s kw supp s1 s2 s4 s5 i E1 E2 Ep [new [T [L C]]] Po.
      destruct (open_frame s kw supp s1 s2 s4 _ E1 E2 Ep) as [_ [Q1 Q2]].
      rewrite Q1 in T; rewrite Q2 in L, C; exists new; auto.
  Qed.

  (** One record per with-block: an object that was used is not entered again. *)
  Definition used_in (s : st) (i : nat) : Prop := i < length (fins s) /\ f_used (get_fin s i) = true.
  Lemma replace_length : forall l i x, length (replace l i x) = length l.
  Proof. induction l as [|y r IH]; intros [|i] x; cbn; auto. Qed.
  Lemma replace_nth : forall l i x j d, nth j (replace l i x) d = if Nat.eqb j i && Nat.ltb i (length l) then x else nth j l d.
  Proof.
    induction l as [|y r IH]; intros i x j d.
    - destruct i; cbn; rewrite Bool.andb_false_r; reflexivity.
    - destruct i as [|i], j as [|j]; cbn; try reflexivity. rewrite IH; reflexivity.
  Qed.

  Definition per_block (s s' : st) : Prop :=
    exists new, tr s' = tr s ++ new /\ length (fins s) <= length (fins s') /\
      forall i, (used_in s i -> used_in s' i /\ count (of_block i) new = 0) /\ count (of_block i) new <= 1 /\
                (count (of_block i) new >= 1 -> used_in s' i).
  Lemma per_block_trans : forall a b c, per_block a b -> per_block b c -> per_block a c.
  Proof.
    intros a b c [n1 [T1 [L1 C1]]] [n2 [T2 [L2 C2]]]; exists (n1 ++ n2); split; [rewrite T2, T1, app_assoc; reflexivity|split; [lia|]].
    intros i; destruct (C1 i) as [A1 [A2 A3]]; destruct (C2 i) as [B1 [B2 B3]]; rewrite count_app.
    split; [|split].
    - intros U; destruct (A1 U) as [U' Z]; destruct (B1 U') as [U'' Z']; split; [exact U''|lia].
    - destruct (Nat.eq_dec (count (of_block i) n1) 0) as [Z|N]; [lia|].
      destruct (B1 (A3 ltac:(lia))) as [_ Z]; lia.
    - intros G; destruct (Nat.eq_dec (count (of_block i) n1) 0) as [Z|N]; [apply B3; lia|].
      apply B1; apply A3; lia.
  Qed.
  Lemma per_block_quiet : forall s s' new, tr s' = tr s ++ new -> (forall i, count (of_block i) new = 0) -> length (fins s) <= length (fins s') ->
    (forall i, used_in s i -> used_in s' i) -> per_block s s'.
  Proof.
    intros s s' new T C L U; exists new; split; [exact T|split; [exact L|]]; intros i; rewrite C; split; [auto|split; [lia|lia]].
  Qed.
  Lemma used_put : forall s i x j, (f_used (get_fin s i) = true -> f_used x = true) -> used_in s j -> used_in (put_fin s i x) j.
  Proof.
    intros s i x j H [L U]; split; cbn; [rewrite replace_length; exact L|].
    unfold get_fin; cbn; rewrite replace_nth; destruct (Nat.eqb_spec j i) as [->|]; [|exact U].
    cbn [andb]; destruct (Nat.ltb i (length (fins s))); [apply H; exact U|exact U].
  Qed.

  Lemma edit_used : forall s i args kw j, used_in s j -> used_in (fst (edit s i args kw)) j.
  Proof.
    intros s i args kw j U; unfold edit; destruct (f_entered (get_fin s i)).
    - destruct (convert_arguments (cf s) args kw); cbn [fst]; [apply used_put; auto|exact U].
    - destruct (negb (Nat.eqb (length args) 1) && negb (Nat.eqb (length kw) 0)); [exact U|].
      destruct args; [exact U|]; destruct (f_used (get_fin s i)) eqn:Eu; [exact U|].
      cbn [fst]; apply used_put; auto.
  Qed.
  Lemma edit_length : forall s i args kw, length (fins (fst (edit s i args kw))) = length (fins s).
  Proof.
    intros s i args kw; unfold edit; destruct (f_entered (get_fin s i)).
    - destruct (convert_arguments (cf s) args kw); cbn; [apply replace_length|reflexivity].
    - destruct (negb (Nat.eqb (length args) 1) && negb (Nat.eqb (length kw) 0)); [reflexivity|].
      destruct args; [reflexivity|]; destruct (f_used (get_fin s i)); cbn; [reflexivity|apply replace_length].
  Qed.

  Lemma used_app : forall s x i, used_in s i -> used_in (set_fins s (fins s ++ [x])) i.
  Proof.
    intros s x i [L U]; split; cbn; [rewrite app_length; cbn; lia|]; unfold get_fin in *; cbn; rewrite app_nth1 by exact L; exact U.
  Qed.

  (** Entering, the body, leaving. *)
  Lemma block_step : forall s i s1 s2 s3 o o', enter W s i = Some s1 -> per_block s1 s2 -> i < length (fins s) ->
    leave W s2 i o = (s3, o') -> per_block s s3.
  Proof.
    intros s i s1 s2 s3 o o' E B Li Lv.
    assert (U1 : used_in s1 i /\ tr s1 = tr s /\ length (fins s1) = length (fins s) /\ (forall j, used_in s j -> used_in s1 j) /\ ~ used_in s i).
    { unfold enter in E; destruct (f_used (get_fin s i) || f_entered (get_fin s i)) eqn:Eu; [discriminate|]; injection E as <-.
      apply Bool.orb_false_iff in Eu; destruct Eu as [Eu _].
      split; [|split; [reflexivity|split; [apply replace_length|split; [intros j; apply used_put; auto|intros [_ Z]; congruence]]]].
      split; cbn; [rewrite replace_length; exact Li|]; unfold get_fin; cbn; rewrite replace_nth, Nat.eqb_refl.
      destruct (Nat.ltb_spec i (length (fins s))); [reflexivity|lia]. }
    destruct U1 as [U1 [T1 [L1 [K1 N1]]]].
    destruct B as [new [T [L C]]]; rewrite T1 in T; rewrite L1 in L.
    destruct (leave_events _ _ _ _ _ Lv) as [evs [T2 Q]].
    pose proof (leave_frame _ _ _ _ _ Lv) as [_ [_ [_ [_ [_ [_ [d F]]]]]]].
    assert (U3 : forall j, used_in s2 j -> used_in s3 j).
    { intros j Uj; destruct F as [F|F]; unfold used_in, get_fin in *; rewrite F; [|exact Uj].
      rewrite replace_length, replace_nth; split; [apply Uj|].
      destruct (Nat.eqb_spec j i) as [->|]; [|apply Uj]; cbn [andb]; destruct (Nat.ltb i (length (fins s2))); cbn; apply Uj. }
    assert (L3 : length (fins s3) = length (fins s2)) by (destruct F as [F|F]; rewrite F; [apply replace_length|reflexivity]).
    exists (new ++ evs); split; [rewrite T2, T, app_assoc; reflexivity|split; [lia|]].
    intros j; rewrite count_app; destruct (C j) as [C1 [C2 C3]].
    assert (Ev : count (of_block j) evs <= if Nat.eqb j i then 1 else 0).
    { destruct Q as [->|[f ->]]; [cbn; lia|]; unfold count; cbn; destruct (Nat.eqb j i); cbn; lia. }
    destruct (Nat.eqb_spec j i) as [->|Ne].
    - destruct (C1 U1) as [U2 Z]; split; [intros Z0; contradiction|split; [lia|intros _; apply U3; exact U2]].
    - split; [intros Uj; destruct (C1 (K1 j Uj)) as [U2 Z]; split; [apply U3; exact U2|lia]|split; [lia|]].
      intros G; apply U3; apply C3; lia.
  Qed.

  Lemma supp_used : forall s i vs j, used_in s j -> used_in (fst (add_supp W s i vs)) j.
  Proof. intros s i vs j U; unfold add_supp; destruct (suppress _ _ _ _ _ _) as [[all l]|z]; [apply used_put; auto|exact U]. Qed.
  Lemma supp_length : forall s i vs, length (fins (fst (add_supp W s i vs))) = length (fins s).
  Proof. intros s i vs; unfold add_supp; destruct (suppress _ _ _ _ _ _) as [[all l]|z]; cbn; [apply replace_length|reflexivity]. Qed.
  Lemma partial_used : forall s i kw g j, used_in s j -> used_in (fst (partial_enter W s i kw g)) j.
  Proof. intros s i kw g j U; unfold partial_enter; destruct g; [apply supp_used; apply edit_used; exact U|apply edit_used; exact U]. Qed.
  Lemma partial_length : forall s i kw g, length (fins (fst (partial_enter W s i kw g))) = length (fins s).
  Proof. intros s i kw g; unfold partial_enter; destruct g; [rewrite supp_length|]; apply edit_length. Qed.

  Lemma exec_per_block : forall q, supps good q -> forall s s' o, exec W q s = (s', o) -> rstack s <> Some [] -> per_block s s'.
  Proof.
    intros q Hg s s' o H.
    enough (G : rstack s <> Some [] -> rstack s' = rstack s /\ per_block s s') by (intros N; apply G; exact N).
    apply (exec_pieces (fun s s' => rstack s <> Some [] -> rstack s' = rstack s /\ per_block s s') good) with (q := q) (o := o); try exact H; try exact Hg; clear.
    - intros s _; split; [reflexivity|]; apply (per_block_quiet _ _ []); auto; rewrite app_nil_r; reflexivity.
    - intros a b c H1 H2 N; destruct (H1 N) as [R1 B1]; destruct (H2 ltac:(rewrite R1; exact N)) as [R2 B2]; split; [congruence|exact (per_block_trans _ _ _ B1 B2)].
    - intros s _; split; [reflexivity|]; apply (per_block_quiet _ _ []); auto; cbn; rewrite app_nil_r; reflexivity.
    - intros s f _; split; [reflexivity|]; eapply per_block_quiet; [reflexivity|reflexivity|auto|auto].
    - intros s c _; split; [reflexivity|]; apply (per_block_quiet _ _ []); auto; cbn; rewrite app_nil_r; reflexivity.
    - intros s x _ _; split; [reflexivity|]; apply (per_block_quiet _ _ []); [cbn; rewrite app_nil_r; reflexivity|reflexivity|cbn; rewrite app_length; lia|apply used_app].
    - intros s i vs _; pose proof (supp_frame s i vs) as F; cbv zeta in F; split; [apply F|].
      apply (per_block_quiet _ _ []); [rewrite app_nil_r; apply F|reflexivity|rewrite supp_length; lia|intros j; apply supp_used].
    - intros s i args kw _; pose proof (edit_frame s i args kw) as F; cbv zeta in F; split; [apply F|].
      apply (per_block_quiet _ _ []); [rewrite app_nil_r; apply F|reflexivity|rewrite edit_length; lia|apply edit_used].
    - intros s i x _ _; split; [reflexivity|]; apply (per_block_quiet _ _ []); [cbn; rewrite app_nil_r; reflexivity|reflexivity|cbn; rewrite replace_length; lia|].
      intros j; apply used_put; auto.
    - intros s args kw _; destruct (manual W KManual args kw s) as [s1 r] eqn:E; cbn [fst].
      destruct (manual_events _ _ _ _ _ _ E) as [evs [T C]]; pose proof (manual_frame KManual args kw s) as F; rewrite E in F; cbv zeta in F; cbn [fst] in F.
      split; [apply F|]; apply (per_block_quiet _ _ evs); [exact T|intros i; destruct C as [->|[f ->]]; reflexivity|destruct F as [_ [F _]]; rewrite F; lia|].
      intros i; unfold used_in, get_fin; destruct F as [_ [F _]]; rewrite F; auto.
    - intros s s1 s2 p a kw o o' H A N; destruct (H N) as [R1 [new [T [L C]]]]; cbn in T, L, C, R1.
      destruct (after_events _ _ _ _ _ _ _ _ A) as [evs [T2 Q]]; pose proof (after_frame _ _ _ _ _ _ _ _ A) as [F1 [F2 _]].
      split; [cbn; congruence|].
      exists ([EStart (ncall s)] ++ new ++ evs ++ [EEnd (ncall s) o']); cbn [tr emit fins].
      split; [rewrite T2, T, <- !app_assoc; reflexivity|]; rewrite F2; split; [exact L|].
      intros i; rewrite !count_app; destruct (C i) as [C1 [C2 C3]].
      assert (Ev : count (of_block i) evs = 0) by (destruct Q as [->|[->|[[f [v [_ ->]]]|[e [f [_ ->]]]]]]; reflexivity).
      rewrite Ev; cbn [count filter of_block length]; change (count (of_block i) [EStart (ncall s)]) with 0; change (count (of_block i) [EEnd (ncall s) o']) with 0.
      rewrite !Nat.add_0_r, Nat.add_0_l.
      unfold used_in, get_fin in *; cbn [fins emit] in *; rewrite F2; cbn in C1, C3; auto.
    - intros s s1 full H N; destruct (H N) as [R1 [new [T [L C]]]]; cbn in T, L, C, R1; split; [exact R1|].
      exists ([EOff full] ++ new ++ [EOn]); cbn [tr set_unl emit fins]; split; [rewrite T, <- !app_assoc; reflexivity|split; [exact L|]].
      intros i; rewrite !count_app; destruct (C i) as [C1 [C2 C3]].
      change (count (of_block i) [EOff full]) with 0; change (count (of_block i) [EOn]) with 0; rewrite Nat.add_0_r, Nat.add_0_l; auto.
    - intros s i s1 s2 s3 o o' E H Lv N.
      assert (E' := E); unfold enter in E'; destruct (f_used (get_fin s i) || f_entered (get_fin s i)) eqn:Eu; [discriminate|]; injection E' as E'.
      assert (Li : i < length (fins s)).
      { destruct (Nat.ltb_spec i (length (fins s))) as [L|L]; [exact L|]; exfalso; unfold get_fin in Eu; rewrite nth_overflow in Eu by exact L; discriminate. }
      assert (R0 : rstack s1 = rstack s) by (rewrite <- E'; reflexivity).
      destruct (H ltac:(rewrite R0; exact N)) as [R1 B].
      split; [rewrite (proj1 (leave_frame _ _ _ _ _ Lv)); congruence|].
      exact (block_step _ _ _ _ _ _ _ E B Li Lv).
    - intros s kw supp s1 s2 s4 s5 s6 j s7 o o' i E1 E2 Ep H Po Lv N.
      destruct (open_frame s kw supp s1 s2 s4 _ E1 E2 Ep) as [R4 _].
      pose proof (partial_frame s2 i kw supp) as F; cbv zeta in F; rewrite Ep in F; cbn [fst] in F; destruct F as [_ [_ [_ [_ [_ [T4 _]]]]]].
      pose proof (partial_length s2 i kw supp) as L4; rewrite Ep in L4; cbn [fst] in L4.
      assert (U4 : forall x, used_in s2 x -> used_in s4 x) by (intros x Hx; pose proof (partial_used s2 i kw supp x Hx) as U; rewrite Ep in U; exact U).
      destruct H as [R5 B]; [rewrite R4; destruct (rstack s); discriminate|].
      rewrite R4 in R5; unfold pop in Po; rewrite R5 in Po.
      assert (P6 : j = i /\ rstack s6 = rstack s /\ tr s6 = tr s5 /\ fins s6 = fins s5).
      { destruct (rstack s) as [[|y r]|]; [contradiction| |]; injection Po as <- <-; auto. }
      destruct P6 as [-> [R6 [T6 F6]]].
      split; [rewrite (proj1 (leave_frame _ _ _ _ _ Lv)); exact R6|].
      assert (B1 : per_block s s1).
      { rewrite E1; apply (per_block_quiet _ _ []); [cbn; rewrite app_nil_r; reflexivity|reflexivity|cbn; rewrite app_length; lia|].
        intros x Hx; destruct (used_app s (mkFin [] [] [] [] false false false) x Hx) as [Y1 Y2]; split; assumption. }
      assert (Li : i < length (fins s1)) by (rewrite E1; cbn; rewrite app_length; cbn; unfold i; lia).
      assert (B26 : per_block s2 s6).
      { apply per_block_trans with s4.
        - apply (per_block_quiet _ _ []); [rewrite app_nil_r; exact T4|reflexivity|lia|exact U4].
        - apply per_block_trans with s5; [exact B|].
          apply (per_block_quiet _ _ []); [rewrite app_nil_r; exact T6|reflexivity|rewrite F6; lia|intros x; unfold used_in, get_fin; rewrite F6; auto]. }
      exact (per_block_trans _ _ _ B1 (block_step _ _ _ _ _ _ _ E2 B26 Li Lv)).
    - intros s kw supp s1 s2 s4 z Hg i E1 E2 Ep N; destruct (good_partial _ _ _ _ _ _ Hg Ep).
    - intros s kw supp s1 s2 s4 s5 i E1 E2 Ep H Po N; exfalso.
      destruct (open_frame s kw supp s1 s2 s4 _ E1 E2 Ep) as [Q _].
      rewrite Q in H; destruct H as [H _]; [destruct (rstack s); discriminate|]; unfold pop in Po; rewrite H in Po.
      destruct (rstack s) as [[|y r]|]; discriminate.
  Qed.
End Struct.
