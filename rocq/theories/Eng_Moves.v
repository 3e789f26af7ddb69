(** Invariants of the engine: the moves as a relation, and sums over actors. *)
From Verif Require Import Base Eng_Model Eng_Spec.

Section Inv.
  Variable nested : nat -> list nat.

  (** One move of an actor, row by row.  [ex i]: the thread of actor i is over; [n]: number of actors. *)
  Inductive lm (ex : nat -> bool) (n : nat) : act -> shared -> act -> shared -> list act -> Prop :=
  (* engine.write *)
  | m_w0 : forall b r l g pc, pc = match wmode g with MFirst => W1 | MNew => W5 | MBlocked => B1 end ->
      lm ex n (mkAct b (FWrite W0 r :: l)) g (mkAct b (FWrite pc r :: l)) g []
  | m_w1 : forall b r l g, elock g = false -> lm ex n (mkAct b (FWrite W1 r :: l)) g (mkAct b (FWrite W2 r :: l)) (set_elock g true) []
  | m_w2y : forall b r l g, started g = true -> lm ex n (mkAct b (FWrite W2 r :: l)) g (mkAct b (FWrite W4 r :: l)) g []
  | m_w2n : forall b r l g, started g = false -> lm ex n (mkAct b (FWrite W2 r :: l)) g (mkAct b (FWrite W3a r :: l)) g []
  | m_w3a : forall b r l g, slock g = false -> lm ex n (mkAct b (FWrite W3a r :: l)) g (mkAct b (FWrite W3b r :: l)) (set_slock g true) []
  | m_w3by : forall b r l g, started g = true ->
      lm ex n (mkAct b (FWrite W3b r :: l)) g (mkAct b l) (emit (set_elock (set_slock g false) false) [EvCrash r]) []
  | m_w3bn : forall b r l g, started g = false ->
      lm ex n (mkAct b (FWrite W3b r :: l)) g (mkAct b (FWrite W3c r :: l)) (emit (set_started (set_slock g false)) [EvInit]) []
  | m_w3c : forall b r l g, lm ex n (mkAct b (FWrite W3c r :: l)) g (mkAct b (FWrite W3d r :: l)) (load g n) (new_workers g)
  | m_w3d : forall b r l g, lm ex n (mkAct b (FWrite W3d r :: l)) g (mkAct b (FWrite W4 r :: l)) (set_mode g MNew) []
  | m_w4 : forall b r l g, lm ex n (mkAct b (FWrite W4 r :: l)) g (mkAct b (FWrite W5 r :: l)) (set_elock g false) []
  | m_w5 : forall b r l g k, cur g = Some k -> lm ex n (mkAct b (FWrite W5 r :: l)) g (mkAct b (FWrite (W6 k) r :: l)) g []
  | m_w5c : forall b r l g, cur g = None -> lm ex n (mkAct b (FWrite W5 r :: l)) g (mkAct b l) (emit g [EvCrash r]) []
  | m_w6m : forall b r l g k e, nth_error (engs g) k = Some e -> e_multi e = true -> room e = true ->
      lm ex n (mkAct b (FWrite (W6 k) r :: l)) g (mkAct b (FWrite W7 r :: l))
         (emit (set_eng g k (set_queue e (e_queue e ++ [r]))) [EvPut k r]) []
  | m_w6s : forall b r l g k e, nth_error (engs g) k = Some e -> e_multi e = false ->
      lm ex n (mkAct b (FWrite (W6 k) r :: l)) g (mkAct b (FExec k r (nested r) :: FWrite W7 r :: l)) (emit g [EvPut k r; EvStart k r]) []
  | m_w7 : forall b r l g, lm ex n (mkAct b (FWrite W7 r :: l)) g (mkAct b l) (emit g [EvRet r]) []
  | m_b1 : forall b r l g, elock g = false -> lm ex n (mkAct b (FWrite B1 r :: l)) g (mkAct b (FWrite B2 r :: l)) (set_elock g true) []
  | m_b2 : forall b r l g k, cur g = Some k -> lm ex n (mkAct b (FWrite B2 r :: l)) g (mkAct b (FWrite (B3 k) r :: l)) g []
  | m_b2c : forall b r l g, cur g = None -> lm ex n (mkAct b (FWrite B2 r :: l)) g (mkAct b l) (emit (set_elock g false) [EvCrash r]) []
  | m_b3m : forall b r l g k e, nth_error (engs g) k = Some e -> e_multi e = true -> room e = true ->
      lm ex n (mkAct b (FWrite (B3 k) r :: l)) g (mkAct b (FWrite B4 r :: l))
         (emit (set_eng g k (set_queue e (e_queue e ++ [r]))) [EvPut k r]) []
  | m_b3s : forall b r l g k e, nth_error (engs g) k = Some e -> e_multi e = false ->
      lm ex n (mkAct b (FWrite (B3 k) r :: l)) g (mkAct b (FExec k r (nested r) :: FWrite B4 r :: l)) (emit g [EvPut k r; EvStart k r]) []
  | m_b4 : forall b r l g, lm ex n (mkAct b (FWrite B4 r :: l)) g (mkAct b l) (emit (set_elock g false) [EvRet r]) []
  (* executing a record *)
  | m_nest : forall b k r y rest l g,
      lm ex n (mkAct b (FExec k r (y :: rest) :: l)) g (mkAct b (FWrite W0 y :: FExec k r rest :: l)) (emit g [EvCall y]) []
  | m_done : forall b k r l g, lm ex n (mkAct b (FExec k r [] :: l)) g (mkAct b l) (emit g [EvDone k r]) []
  (* commands *)
  | m_cw : forall r cs g, lm ex n (mkAct (BThread (CWrite r :: cs) TNext) []) g (mkAct (BThread cs TNext) [FWrite W0 r]) (emit g [EvCall r]) []
  | m_cs : forall k v cs g, lm ex n (mkAct (BThread (CSet k v :: cs) TNext) []) g (mkAct (BThread cs (S0 k v)) []) g []
  | m_ct : forall cs g, lm ex n (mkAct (BThread (CStarted :: cs) TNext) []) g (mkAct (BThread cs T0) []) g []
  | m_chy : forall cs g, started g = true -> lm ex n (mkAct (BThread (CHook :: cs) TNext) []) g (mkAct (BThread cs H1) []) g []
  | m_chn : forall cs g, started g = false -> lm ex n (mkAct (BThread (CHook :: cs) TNext) []) g (mkAct (BThread cs TNext) []) g []
  (* config.set(pool_size / max_queue_size) *)
  | m_s0 : forall k v cs g, slock g = false -> lm ex n (mkAct (BThread cs (S0 k v)) []) g (mkAct (BThread cs (S1 k v)) []) (set_slock g true) []
  | m_s1n : forall k v cs g, conflict g k v = true \/ value_of g k = v ->
      lm ex n (mkAct (BThread cs (S1 k v)) []) g (mkAct (BThread cs S11) []) g []
  | m_s1y : forall k v cs g, conflict g k v = false -> value_of g k <> v ->
      lm ex n (mkAct (BThread cs (S1 k v)) []) g (mkAct (BThread cs S2) []) (store g k v) []
  | m_s2 : forall cs g, elock g = false -> lm ex n (mkAct (BThread cs S2) []) g (mkAct (BThread cs S3) []) (set_elock g true) []
  | m_s3 : forall cs g, lm ex n (mkAct (BThread cs S3) []) g (mkAct (BThread cs S4) []) (set_elock g false) []
  | m_s4y : forall cs g, started g = true -> lm ex n (mkAct (BThread cs S4) []) g (mkAct (BThread cs S5) []) g []
  | m_s4n : forall cs g, started g = false -> lm ex n (mkAct (BThread cs S4) []) g (mkAct (BThread cs S11) []) g []
  | m_s5 : forall cs g, elock g = false -> lm ex n (mkAct (BThread cs S5) []) g (mkAct (BThread cs S6) []) (set_elock g true) []
  | m_s6 : forall cs g, lm ex n (mkAct (BThread cs S6) []) g (mkAct (BThread cs (S7 P0)) []) (set_mode g MBlocked) []
  | m_s7 : forall cs p g g' p', pstep ex p g = Some (g', p') ->
      lm ex n (mkAct (BThread cs (S7 p)) []) g (mkAct (BThread cs (S7 p')) []) g' []
  | m_s7e : forall cs g, lm ex n (mkAct (BThread cs (S7 PEnd)) []) g (mkAct (BThread cs S8) []) g []
  | m_s8 : forall cs g, lm ex n (mkAct (BThread cs S8) []) g (mkAct (BThread cs S9) []) (load g n) (new_workers g)
  | m_s9 : forall cs g, lm ex n (mkAct (BThread cs S9) []) g (mkAct (BThread cs S10) []) (set_mode g MNew) []
  | m_s10 : forall cs g, lm ex n (mkAct (BThread cs S10) []) g (mkAct (BThread cs S11) []) (emit (set_elock g false) [EvReloaded]) []
  | m_s11 : forall cs g, lm ex n (mkAct (BThread cs S11) []) g (mkAct (BThread cs TNext) []) (set_slock g false) []
  (* config.set(started=True) *)
  | m_t0 : forall cs g, slock g = false -> lm ex n (mkAct (BThread cs T0) []) g (mkAct (BThread cs T1) []) (set_slock g true) []
  | m_t1 : forall cs g, lm ex n (mkAct (BThread cs T1) []) g (mkAct (BThread cs TNext) []) (set_slock (set_started g) false) []
  (* the exit hook *)
  | m_h1 : forall cs g, elock g = false ->
      lm ex n (mkAct (BThread cs H1) []) g (mkAct (BThread cs H2) []) (emit (set_leaked (set_elock g true)) [EvHookLock]) []
  | m_h2 : forall cs g, lm ex n (mkAct (BThread cs H2) []) g (mkAct (BThread cs (H3 P0)) []) (emit (set_mode g MBlocked) [EvHookBlock]) []
  | m_h3 : forall cs p g g' p', pstep ex p g = Some (g', p') ->
      lm ex n (mkAct (BThread cs (H3 p)) []) g (mkAct (BThread cs (H3 p')) []) g' []
  | m_h3e : forall cs g, lm ex n (mkAct (BThread cs (H3 PEnd)) []) g (mkAct (BThread cs TNext) []) (emit g [EvHookEnd]) []
  | m_abort : forall cs pc st g, (pc = H1 \/ pc = H2 \/ exists p, pc = H3 p) ->
      lm ex n (mkAct (BThread cs pc) st) g (mkAct (BThread cs TNext) st) (emit g [EvHookAbort]) []
  (* workers *)
  | m_kgety : forall k j g e r q, nth_error (engs g) k = Some e -> e_queue e = r :: q ->
      lm ex n (mkAct (BWorker k j KGet) []) g (mkAct (BWorker k j KBusy) [FExec k r (nested r)])
         (emit (set_eng g k (set_queue e q)) [EvStart k r]) []
  | m_kgetn : forall k j g e, nth_error (engs g) k = Some e -> e_queue e = [] ->
      lm ex n (mkAct (BWorker k j KGet) []) g (mkAct (BWorker k j KCheck) []) g []
  | m_kchecky : forall k j g e, nth_error (engs g) k = Some e -> nth j (e_flags e) false = true ->
      lm ex n (mkAct (BWorker k j KCheck) []) g (mkAct (BWorker k j KExit) []) g []
  | m_kcheckn : forall k j g e, nth_error (engs g) k = Some e -> nth j (e_flags e) false = false ->
      lm ex n (mkAct (BWorker k j KCheck) []) g (mkAct (BWorker k j KGet) []) g []
  | m_kbusy : forall k j g e, nth_error (engs g) k = Some e ->
      lm ex n (mkAct (BWorker k j KBusy) []) g (mkAct (BWorker k j KGet) []) g [].

  Lemma lstep_lm : forall ex n x g x' g' new, lstep nested ex n x g = Some (x', g', new) -> lm ex n x g x' g' new.
  Proof.
    intros ex n [b [|f l]] g x' g' new H; unfold lstep in H; cbn [abase astack] in H.
    - destruct b as [cs pc|k j pc].
      + unfold tstep in H; destruct pc as [|k v|k v| | | | | |p| | | | | | | | |p].
        * destruct cs as [|[r|k v| |] cs]; [discriminate| | | |]; injection H as <- <- <-; try (constructor; fail).
          destruct (started g) eqn:E; constructor; exact E.
        * destruct (slock g) eqn:E; [discriminate|]; injection H as <- <- <-; constructor; exact E.
        * destruct (conflict g k v) eqn:E; [injection H as <- <- <-; constructor; auto|].
          destruct (Nat.eqb_spec (value_of g k) v) as [E2|E2]; injection H as <- <- <-; constructor; auto.
        * destruct (elock g) eqn:E; [discriminate|]; injection H as <- <- <-; constructor; exact E.
        * injection H as <- <- <-; constructor.
        * destruct (started g) eqn:E; injection H as <- <- <-; constructor; exact E.
        * destruct (elock g) eqn:E; [discriminate|]; injection H as <- <- <-; constructor; exact E.
        * injection H as <- <- <-; constructor.
        * destruct p; try (match type of H with match ?q with _ => _ end = _ => destruct q as [[g1 p1]|] eqn:E end; [|discriminate];
            injection H as <- <- <-; constructor; exact E).
          injection H as <- <- <-; constructor.
        * injection H as <- <- <-; constructor.
        * injection H as <- <- <-; constructor.
        * injection H as <- <- <-; constructor.
        * injection H as <- <- <-; constructor.
        * destruct (slock g) eqn:E; [discriminate|]; injection H as <- <- <-; constructor; exact E.
        * injection H as <- <- <-; constructor.
        * destruct (elock g) eqn:E; [discriminate|]; injection H as <- <- <-; constructor; exact E.
        * injection H as <- <- <-; constructor.
        * destruct p; try (match type of H with match ?q with _ => _ end = _ => destruct q as [[g1 p1]|] eqn:E end; [|discriminate];
            injection H as <- <- <-; constructor; exact E).
          injection H as <- <- <-; constructor.
      + unfold kstep in H; destruct (nth_error (engs g) k) as [e|] eqn:E; [|discriminate].
        destruct pc; [destruct (e_queue e) eqn:Q|destruct (nth j (e_flags e) false) eqn:Q| |discriminate];
          injection H as <- <- <-; econstructor; eassumption.
    - destruct (fstep nested n f g) as [[[g1 fs] new1]|] eqn:F; [|discriminate]; injection H as <- <- <-.
      destruct f as [pc r|k r [|y rest]]; cbn [fstep] in F; [|injection F as <- <- <-; constructor|injection F as <- <- <-; constructor].
      destruct pc as [| | | | | | | | |k| | | |k|]; cbn [fstep] in F.
      * injection F as <- <- <-; constructor; reflexivity.
      * destruct (elock g) eqn:E; [discriminate|]; injection F as <- <- <-; constructor; exact E.
      * destruct (started g) eqn:E; injection F as <- <- <-; constructor; exact E.
      * destruct (slock g) eqn:E; [discriminate|]; injection F as <- <- <-; constructor; exact E.
      * destruct (started g) eqn:E; injection F as <- <- <-; constructor; exact E.
      * injection F as <- <- <-; constructor.
      * injection F as <- <- <-; constructor.
      * injection F as <- <- <-; constructor.
      * destruct (cur g) eqn:E; injection F as <- <- <-; constructor; exact E.
      * unfold hand_over in F; destruct (nth_error (engs g) k) as [e|] eqn:E; [|discriminate].
        destruct (e_multi e) eqn:M; [destruct (room e) eqn:R; [|discriminate]|]; injection F as <- <- <-; econstructor; eassumption.
      * injection F as <- <- <-; constructor.
      * destruct (elock g) eqn:E; [discriminate|]; injection F as <- <- <-; constructor; exact E.
      * destruct (cur g) eqn:E; injection F as <- <- <-; constructor; exact E.
      * unfold hand_over in F; destruct (nth_error (engs g) k) as [e|] eqn:E; [|discriminate].
        destruct (e_multi e) eqn:M; [destruct (room e) eqn:R; [|discriminate]|]; injection F as <- <- <-; econstructor; eassumption.
      * injection F as <- <- <-; constructor.
  Qed.

  Definition trans (s s' : state) : Prop := exists l1 x l2 x' g' new,
    actors s = l1 ++ x :: l2 /\ lm (is_exited (actors s)) (length (actors s)) x (sh s) x' g' new /\
    s' = mkState (l1 ++ x' :: l2 ++ new) g'.

  Lemma upd_app : forall {A} (l1 : list A) x l2 y, upd (l1 ++ x :: l2) (length l1) y = l1 ++ y :: l2.
  Proof. induction l1 as [|z l1 IH]; intros; cbn; [reflexivity|]; rewrite IH; reflexivity. Qed.

  Lemma do_move_trans : forall m s, do_move nested s m = s \/ trans s (do_move nested s m).
  Proof.
    intros m s; unfold do_move.
    destruct m as [a|a]; [unfold step|unfold abort]; destruct (nth_error (actors s) a) as [x|] eqn:E; try (left; reflexivity);
      apply nth_error_split in E; destruct E as (l1 & l2 & E & <-).
    - destruct (lstep nested (is_exited (actors s)) (length (actors s)) x (sh s)) as [[[x' g'] new]|] eqn:L; [right|left; reflexivity].
      exists l1, x, l2, x', g', new; split; [exact E|]; split; [apply lstep_lm; exact L|].
      rewrite E, upd_app, <- app_assoc; reflexivity.
    - destruct x as [[cs pc|] st]; [|left; reflexivity].
      destruct pc; try (left; reflexivity); right; (eexists l1, _, l2, (mkAct (BThread cs TNext) st), (emit (sh s) [EvHookAbort]), [];
        split; [exact E|]; split; [constructor; eauto|]; rewrite E, upd_app, app_nil_r; reflexivity).
  Qed.

  Lemma run_inv : forall (P : state -> Prop), (forall s s', P s -> trans s s' -> P s') ->
    forall ms s, P s -> P (run nested ms s).
  Proof.
    intros P H ms; induction ms as [|m ms IH]; intros s Hs; [exact Hs|].
    cbn; apply IH; destruct (do_move_trans m s) as [->|T]; [exact Hs|apply (H s); assumption].
  Qed.

  Lemma run_app : forall ms1 ms2 s, run nested (ms1 ++ ms2) s = run nested ms2 (run nested ms1 s).
  Proof. intros; unfold run; apply fold_left_app. Qed.
End Inv.

(** Sums over the actors. *)
Definition tot {A} (f : A -> nat) (l : list A) : nat := list_sum (map f l).
Lemma tot_app : forall {A} (f : A -> nat) a b, tot f (a ++ b) = tot f a + tot f b.
Proof. intros; unfold tot; rewrite map_app, list_sum_app; reflexivity. Qed.
Lemma tot_cons : forall {A} (f : A -> nat) x l, tot f (x :: l) = f x + tot f l.
Proof. reflexivity. Qed.
Lemma tot_nil : forall {A} (f : A -> nat), tot f [] = 0.
Proof. reflexivity. Qed.
Lemma tot_zero : forall {A} (f : A -> nat) l, (forall x, In x l -> f x = 0) -> tot f l = 0.
Proof. induction l as [|x l IH]; intros H; [reflexivity|]; rewrite tot_cons, H by (left; reflexivity); rewrite IH; [reflexivity|]; intros; apply H; right; assumption. Qed.
Lemma tot_le : forall {A} (f : A -> nat) l x, In x l -> f x <= tot f l.
Proof. induction l as [|y l IH]; intros x H; [destruct H|]; rewrite tot_cons; destruct H as [->|H]; [lia|apply IH in H; lia]. Qed.
Definition b2n (b : bool) : nat := if b then 1 else 0.
Lemma workers_zero : forall (f : act -> nat) g, (forall k j, f (mkAct (BWorker k j KGet) []) = 0) -> tot f (new_workers g) = 0.
Proof. intros f g H; apply tot_zero; intros x Hx; apply in_map_iff in Hx; destruct Hx as (j & <- & _); apply H. Qed.

(** Events only accumulate; what [pstep] can do. *)
Lemma pstep_cases : forall ex p g g' p', pstep ex p g = Some (g', p') ->
  (p = P0 /\ p' = PEnd /\ g' = g /\ (cur g = None \/ exists k, cur g = Some k /\ forall e, nth_error (engs g) k = Some e -> e_multi e = false)) \/
  (exists k e, p = P0 /\ cur g = Some k /\ nth_error (engs g) k = Some e /\ e_multi e = true /\ p' = PWait k /\ g' = emit g [EvStopBegin k]) \/
  (exists k e, p = PWait k /\ nth_error (engs g) k = Some e /\ e_queue e = [] /\ p' = PFlag k 0 /\ g' = g) \/
  (exists k i e, p = PFlag k i /\ nth_error (engs g) k = Some e /\ i < e_count e /\ p' = PFlag k (S i) /\
                 g' = set_eng g k (set_flags e (upd (e_flags e) i true))) \/
  (exists k i e, p = PFlag k i /\ nth_error (engs g) k = Some e /\ e_count e <= i /\ p' = PJoin k 0 /\ g' = g) \/
  (exists k i e, p = PJoin k i /\ nth_error (engs g) k = Some e /\ i < e_count e /\ ex (e_first e + i) = true /\ p' = PJoin k (S i) /\ g' = g) \/
  (exists k i e, p = PJoin k i /\ nth_error (engs g) k = Some e /\ e_count e <= i /\ p' = PActive /\ g' = emit g [EvStopEnd k]) \/
  (p = PActive /\ p' = PEnd /\ g' = set_active g false).
Proof.
  intros ex p g g' p' H; unfold pstep in H; destruct p as [|k|k i|k i| |].
  - destruct (cur g) as [k|] eqn:C; [|injection H as <- <-; left; auto].
    destruct (nth_error (engs g) k) as [e|] eqn:E.
    + destruct (e_multi e) eqn:M; injection H as <- <-.
      * right; left; exists k, e; auto 12.
      * left; repeat (split; [reflexivity|]); right; exists k; split; [reflexivity|]; intros e' E'; rewrite E in E'; injection E' as <-; exact M.
    + injection H as <- <-; left; repeat (split; [reflexivity|]); right; exists k; split; [reflexivity|]; intros e' E'; rewrite E in E'; discriminate.
  - destruct (nth_error (engs g) k) as [e|] eqn:E; [|discriminate]; destruct (e_queue e) eqn:Q; [|discriminate]; injection H as <- <-.
    do 2 right; left; exists k, e; auto 12.
  - destruct (nth_error (engs g) k) as [e|] eqn:E; [|discriminate]; destruct (Nat.ltb_spec i (e_count e)) as [L|L]; injection H as <- <-.
    + do 3 right; left; exists k, i, e; auto 12.
    + do 4 right; left; exists k, i, e; auto 12.
  - destruct (nth_error (engs g) k) as [e|] eqn:E; [|discriminate]; destruct (Nat.ltb_spec i (e_count e)) as [L|L].
    + destruct (ex (e_first e + i)) eqn:X; [|discriminate]; injection H as <- <-; do 5 right; left; exists k, i, e; auto 10.
    + injection H as <- <-; do 6 right; left; exists k, i, e; auto 10.
  - injection H as <- <-; do 7 right; auto 12.
  - discriminate.
Qed.
