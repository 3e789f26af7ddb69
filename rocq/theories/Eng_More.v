(** Prefixes of executions, fixed settings, what cannot move any more, and what has been done when everything is at rest. *)
From Verif Require Import Base Eng_Model Eng_Spec Eng_Moves Eng_Inv Eng_Struct Eng_Trace Eng_Stop Eng_Flush Eng_Hook Eng_Facts Eng_Sets Eng_Start Eng_Progress.
From Coq Require Import Permutation.

Section More.
  Variable nested : nat -> list nat.
  Notation reach := (reachable nested).

  (** *** Every beginning of a list of events belongs to a state on the way *)
  Lemma do_trace : forall s m, exists es, trace (sh (do_move nested s m)) = trace (sh s) ++ es /\
    (es = [] \/ (exists e, es = [e]) \/ exists k r, es = [EvPut k r; EvStart k r]).
  Proof.
    intros s m; destruct (do_move_trans nested m s) as [->|(l1 & x & l2 & x' & g' & new & E & H & ->)].
    - exists []; rewrite app_nil_r; auto.
    - cbn [sh]; apply (lm_short _ _ _ _ _ _ _ _ H).
  Qed.
  Lemma split_state : forall progs p q ms t1 t2, trace (sh (run nested ms (init progs p q))) = t1 ++ t2 ->
    exists ms1 ms2, ms = ms1 ++ ms2 /\ let s := run nested ms1 (init progs p q) in
    (trace (sh s) = t1 \/ exists k r t0, t1 = t0 ++ [EvPut k r] /\ trace (sh s) = t1 ++ [EvStart k r]).
  Proof.
    intros progs p q ms; induction ms as [|m ms IH] using rev_ind; intros t1 t2 Q.
    - exists [], []; split; [reflexivity|]; left; cbn in *; destruct t1; [reflexivity|discriminate Q].
    - rewrite run_app in Q; set (s0 := run nested ms (init progs p q)) in *; change (run nested [m] s0) with (do_move nested s0 m) in Q.
      destruct (do_trace s0 m) as (es & T & K); rewrite T in Q; destruct (prefix_cases _ _ _ _ Q) as [(t & Q1)|(u & -> & Q1)].
      + destruct (IH _ _ Q1) as (ms1 & ms2 & -> & P); exists ms1, (ms2 ++ [m]); split; [symmetry; apply app_assoc|exact P].
      + destruct u as [|e0 u].
        * exists ms, [m]; split; [reflexivity|]; left; fold s0; rewrite app_nil_r; reflexivity.
        * exists (ms ++ [m]), []; split; [symmetry; apply app_nil_r|]; rewrite run_app; fold s0; change (run nested [m] s0) with (do_move nested s0 m); cbn zeta; rewrite T.
          destruct K as [->|[(e & ->)|(k & r & ->)]]; [discriminate Q1|injection Q1 as <- Q1|injection Q1 as <- Q1].
          -- symmetry in Q1; apply app_eq_nil in Q1; destruct Q1 as (-> & _); left; reflexivity.
          -- destruct u as [|e1 u]; [right; exists k, r, (trace (sh s0)); rewrite <- app_assoc; auto|].
             injection Q1 as <- Q1; symmetry in Q1; apply app_eq_nil in Q1; destruct Q1 as (-> & _); left; reflexivity.
  Qed.
  Lemma at_event : forall progs p q ms t1 e t2, trace (sh (run nested ms (init progs p q))) = t1 ++ e :: t2 -> (forall k r, e <> EvPut k r) ->
    exists ms1 ms2, ms = ms1 ++ ms2 /\ trace (sh (run nested ms1 (init progs p q))) = t1 ++ [e].
  Proof.
    intros progs p q ms t1 e t2 Q N; destruct (split_state progs p q ms (t1 ++ [e]) t2) as (ms1 & ms2 & E & [T|(k & r & t0 & T & _)]).
    - rewrite <- app_assoc; exact Q.
    - exists ms1, ms2; auto.
    - apply app_inj_tail in T; destruct T as (_ & T); destruct (N k r T).
  Qed.

  (** *** Settings that are never changed *)
  Definition t_set (pc : tpc) : bool := match pc with TNext | T0 | T1 | H1 | H2 | H3 _ => false | _ => true end.
  Definition unset (x : act) : Prop := match abase x with BThread cs pc => (forall c, In c cs -> is_set c = false) /\ t_set pc = false | _ => True end.
  Lemma lm_unset : forall ex n x g x' g' new, lm nested ex n x g x' g' new -> unset x -> unset x'.
  Proof.
    intros ex n x g x' g' new H A; mcases H; unfold unset in *; cbn [abase] in *; try exact A; try exact I; destruct A as (A1 & A2); try discriminate A2;
      try (split; [intros c Hc; apply A1; try right; exact Hc|first [exact A2|reflexivity]]).
    specialize (A1 (CSet k v) (or_introl eq_refl)); discriminate A1.
  Qed.
  Lemma unset_reach : forall progs p q s, never is_set progs -> reach progs p q s -> forall x, In x (actors s) -> unset x.
  Proof.
    intros progs p q s N; apply (reach_inv nested (fun s => forall x, In x (actors s) -> unset x)).
    - intros x Hx; apply in_map_iff in Hx; destruct Hx as (cs & <- & Hcs); split; [intros c Hc; apply (N cs c Hcs Hc)|reflexivity].
    - intros s1 s2 _ _ A (l1 & x & l2 & x' & g' & new & E & H & ->) y Hy; cbn [actors] in Hy; apply in_cases in Hy; destruct Hy as [->|[Hy|Hy]].
      + eapply lm_unset; [exact H|]; apply A; rewrite E; apply in_mid.
      + apply A; rewrite E; apply in_old; exact Hy.
      + destruct (lm_new _ _ _ _ _ _ _ _ _ H Hy) as (k & j & ->); exact I.
  Qed.
  Lemma fixed : forall progs p q s, never is_set progs -> reach progs p q s ->
    psize (sh s) = p /\ qmax (sh s) = q /\ (forall k e, nth_error (engs (sh s)) k = Some e -> e_count e = p /\ e_multi e = negb (Nat.eqb p 0) /\ (p <> 0 -> e_max e = q)).
  Proof.
    intros progs p q s N R; assert ((forall x, In x (actors s) -> unset x) /\ psize (sh s) = p /\ qmax (sh s) = q /\
      (forall k e, nth_error (engs (sh s)) k = Some e -> e_count e = p /\ e_multi e = negb (Nat.eqb p 0) /\ (p <> 0 -> e_max e = q))) as [_ K]; [|exact K].
    revert s R; apply (reach_inv nested (fun s => (forall x, In x (actors s) -> unset x) /\ psize (sh s) = p /\ qmax (sh s) = q /\
      (forall k e, nth_error (engs (sh s)) k = Some e -> e_count e = p /\ e_multi e = negb (Nat.eqb p 0) /\ (p <> 0 -> e_max e = q)))).
    - split; [intros x Hx; apply in_map_iff in Hx; destruct Hx as (cs & <- & Hcs); split; [intros c Hc; apply (N cs c Hcs Hc)|reflexivity]|].
      split; [reflexivity|]; split; [reflexivity|]; intros [|k] e Q; discriminate Q.
    - intros s1 s2 _ _ (U & A & B & C) (l1 & x & l2 & x' & g' & new & E & H & ->); cbn [actors sh].
      assert (unset x) as Ux by (apply U; rewrite E; apply in_mid); split.
      { intros y Hy; apply in_cases in Hy; destruct Hy as [->|[Hy|Hy]].
        - eapply lm_unset; [exact H|exact Ux].
        - apply U; rewrite E; apply in_old; exact Hy.
        - destruct (lm_new _ _ _ _ _ _ _ _ _ H Hy) as (k & j & ->); exact I. }
      clear U E; set (n := length (actors s1)) in *; clearbody n; set (g := sh s1) in *; clearbody g.
      destruct (lm_gle _ _ _ _ _ _ _ _ H) as (GL & _).
      assert (psize g' = psize g /\ qmax g' = qmax g) as (P1 & P2) by (clear - H Ux; mcases H; auto; destruct Ux as (_ & Ux); discriminate Ux).
      split; [congruence|]; split; [congruence|]; intros k e' Ee.
      destruct (nth_error (engs g) k) as [e|] eqn:N0.
      + destruct (GL k e N0) as (e2 & E2 & L1 & L2 & _ & L4 & _); rewrite Ee in E2; injection E2 as <-; rewrite L1, L2, L4; apply (C k e N0).
      + assert (engs g' = engs g ++ [new_eng g n]) as EN.
        { clear - H N0 Ee; apply nth_error_None in N0; assert (k < length (engs g')) by (apply nth_error_Some; congruence).
          mcases H; proj; rewrite ?store_engs, ?upd_length in *; try lia; reflexivity. }
        rewrite EN in Ee; assert (k = length (engs g)) as ->.
        { apply nth_error_None in N0; assert (k < length (engs g')) as Q by (apply nth_error_Some; congruence); rewrite EN, app_length in Q; cbn in Q; lia. }
        rewrite nth_error_app2, Nat.sub_diag in Ee by lia; injection Ee as <-; unfold new_eng; cbn [e_count e_multi e_max]; rewrite A, B; split; [reflexivity|]; split; [reflexivity|].
        intros Z; destruct (Nat.eqb_spec p 0); [contradiction|reflexivity].
  Qed.

  (** *** Situations that never change again *)
  Lemma nth_tot : forall (f : act -> nat) l a x, nth_error l a = Some x -> f x <= tot f l.
  Proof. intros f l a x H; apply tot_le; eapply nth_error_In; exact H. Qed.
  (** To show that what is known of a state holds of all later ones. *)
  Lemma stays : forall (P : state -> Prop), (forall s s', Inv s -> P s -> trans nested s s' -> P s') -> forall s, Inv s -> P s -> forall ms, P (run nested ms s).
  Proof.
    intros P H s I0 P0 ms; assert (Inv (run nested ms s) /\ P (run nested ms s)) as [_ K]; [|exact K].
    apply (run_inv nested (fun s => Inv s /\ P s)); [|split; assumption].
    intros s1 s2 [I1 P1] T; split; [eapply Inv_trans; eassumption|eapply H; eassumption].
  Qed.
  Lemma top_base : forall g a x f, actor_ok g a x -> hd_error (astack x) = Some f ->
    exists b st, x = mkAct b (f :: st) /\ forall cs pc, b = BThread cs pc -> pc = TNext.
  Proof.
    intros g a [b [|f0 st]] f OK H; [discriminate H|]; injection H as ->; exists b, st; split; [reflexivity|]; intros cs pc ->.
    destruct (frame_base _ _ _ _ _ OK) as [(c1 & Z)|(k1 & j1 & Z)]; [injection Z as _ ->; reflexivity|discriminate Z].
  Qed.
  Lemma lm_top : forall ex n x g x' g' new, lm nested ex n x g x' g' new -> forall b f st, x = mkAct b (f :: st) -> (forall cs pc, b = BThread cs pc -> pc = TNext) ->
    match f with
    | FWrite W3a _ => slock g = false
    | FWrite B1 _ => elock g = false
    | FWrite (W6 k) _ => exists e, nth_error (engs g) k = Some e /\ (e_multi e = true -> room e = true)
    | _ => True
    end.
  Proof.
    intros ex n x g x' g' new H b0 f0 st0 Q K; mcases H; try discriminate Q; injection Q; intros; subst; auto; try (specialize (K _ _ eq_refl); discriminate K).
    - eauto.
    - eexists; split; [eassumption|]; congruence.
  Qed.
  Lemma embrace_stays : forall a b x y r cs, hd_error (astack x) = Some (FWrite W3a r) -> y = mkAct (BThread cs S2) [] ->
    forall s, Inv s -> nth_error (actors s) a = Some x -> nth_error (actors s) b = Some y ->
    forall ms, nth_error (actors (run nested ms s)) a = Some x /\ nth_error (actors (run nested ms s)) b = Some y.
  Proof.
    intros a b x y r cs HX HY s I0 A B; apply (stays (fun s => nth_error (actors s) a = Some x /\ nth_error (actors s) b = Some y)); [|exact I0|auto].
    clear s I0 A B; intros s s' I0 (A & B) (l1 & z & l2 & z' & g' & new & E & H & ->); cbn [actors].
    destruct I0 as ((IA & IL & _) & (IE & _) & _).
    assert (elock (sh s) = true) as EL.
    { pose proof (nth_tot hE _ _ _ A) as Q; unfold hE in Q at 1; destruct (astack x) as [|f st]; [discriminate HX|]; injection HX as ->; rewrite tot_cons in Q; cbn [f_hE w_hE] in Q.
      destruct (elock (sh s)); [reflexivity|cbn [b2n] in IA; lia]. }
    assert (slock (sh s) = true) as SL.
    { pose proof (nth_tot hL _ _ _ B) as Q; subst y; unfold hL in Q at 1; cbn in Q; destruct (slock (sh s)); [reflexivity|cbn [b2n] in IL; lia]. }
    rewrite E in A, B; destruct (nth_old l1 l2 new z z' a x A) as [(_ & -> & _)|(_ & A')].
    { exfalso; rewrite <- E in A; destruct (top_base _ _ _ _ (IE _ _ A) HX) as (bb & st & Z & K); pose proof (lm_top _ _ _ _ _ _ _ H _ _ _ Z K) as Y; cbn in Y; congruence. }
    destruct (nth_old l1 l2 new z z' b y B) as [(_ & -> & _)|(_ & B')]; [|auto].
    exfalso; subst; clear - H EL; inversion H; subst; try congruence.
    match goal with Q : _ \/ _ |- _ => destruct Q as [Q|[Q|(p0 & Q)]]; discriminate Q end.
  Qed.

  Lemma lm_joins : forall ex n x g x' g' new, lm nested ex n x g x' g' new -> forall cs k i, x = mkAct (BThread cs (S7 (PJoin k i))) [] ->
    forall e, nth_error (engs g) k = Some e -> i < e_count e -> ex (e_first e + i) = true.
  Proof.
    intros ex n x g x' g' new H cs0 k0 i0 Q e Ee L; mcases H; try discriminate Q; injection Q; intros; subst.
    - rewrite Ee in PE; injection PE as <-; exact PX.
    - rewrite Ee in PE; injection PE as <-; lia.
  Qed.
  Lemma cycle_stays : forall a i k cs w r e0, hd_error (astack w) = Some (FWrite B1 r) -> i < e_count e0 ->
    forall s, Inv s -> nth_error (actors s) a = Some (mkAct (BThread cs (S7 (PJoin k i))) []) -> nth_error (actors s) (e_first e0 + i) = Some w ->
    (exists e, nth_error (engs (sh s)) k = Some e /\ eng_le e0 e) ->
    forall ms, let s' := run nested ms s in nth_error (actors s') a = Some (mkAct (BThread cs (S7 (PJoin k i))) []) /\ nth_error (actors s') (e_first e0 + i) = Some w.
  Proof.
    intros a i k cs w r e0 HW IC s I0 A B C ms.
    cut (nth_error (actors (run nested ms s)) a = Some (mkAct (BThread cs (S7 (PJoin k i))) []) /\ nth_error (actors (run nested ms s)) (e_first e0 + i) = Some w /\
         exists e, nth_error (engs (sh (run nested ms s))) k = Some e /\ eng_le e0 e); [intros (K1 & K2 & _); auto|].
    apply (stays (fun s => nth_error (actors s) a = Some (mkAct (BThread cs (S7 (PJoin k i))) []) /\ nth_error (actors s) (e_first e0 + i) = Some w /\
         exists e, nth_error (engs (sh s)) k = Some e /\ eng_le e0 e)); [|exact I0|auto].
    clear s I0 A B C ms; intros s s' I0 (A & B & e & Ee & LE) (l1 & z & l2 & z' & g' & new & E & H & ->); cbn [actors sh].
    pose proof I0 as ((IA & _) & (IE & _) & _).
    assert (elock (sh s) = true) as EL.
    { pose proof (nth_tot hE _ _ _ A) as Q; unfold hE in Q at 1; cbn in Q; destruct (elock (sh s)); [reflexivity|cbn [b2n] in IA; lia]. }
    assert (is_exited (actors s) (e_first e + i) = false) as NX.
    { destruct LE as (_ & _ & -> & _); unfold is_exited; rewrite B; pose proof (IE _ _ B) as OKB.
      destruct w as [b [|f st]]; [discriminate HW|]; destruct (frame_base _ _ _ _ _ OKB) as [(c1 & ->)|(k1 & j1 & ->)]; reflexivity. }
    destruct (lm_gle _ _ _ _ _ _ _ _ H) as (GL & _).
    assert (exists e', nth_error (engs g') k = Some e' /\ eng_le e0 e') as GE.
    { destruct (GL k e Ee) as (e' & E' & L'); exists e'; split; [exact E'|]; clear - LE L'.
      destruct LE as (a1 & a2 & a3 & a4 & a5 & a6), L' as (b1 & b2 & b3 & b4 & b5 & b6); repeat split; try congruence; auto. }
    assert (nth_error (engs (sh s)) k = Some e) as Ee2 by exact Ee.
    assert (i < e_count e) as IC2 by (destruct LE as (_ & _ & _ & -> & _); exact IC).
    rewrite E in A, B; destruct (nth_old l1 l2 new z z' a _ A) as [(_ & <- & _)|(_ & A')].
    { exfalso; pose proof (lm_joins _ _ _ _ _ _ _ H _ _ _ eq_refl e Ee2 IC2); congruence. }
    destruct (nth_old l1 l2 new z z' _ w B) as [(_ & -> & _)|(_ & B')]; [|auto].
    exfalso; rewrite <- E in B; destruct (top_base _ _ _ _ (IE _ _ B) HW) as (bb & st & Z & K); pose proof (lm_top _ _ _ _ _ _ _ H _ _ _ Z K) as Y; cbn in Y; congruence.
  Qed.

  (** A queue of a stopped instance is never served again. *)
  Lemma dead_stays : forall k s, Inv s -> Inv10 s -> Inv10b s -> In (EvStopEnd k) (trace (sh s)) -> forall ms,
    In (EvStopEnd k) (trace (sh (run nested ms s))) /\ starts k (trace (sh (run nested ms s))) = starts k (trace (sh s)).
  Proof.
    intros k s I0 A B C ms; set (l := starts k (trace (sh s))).
    cut (Inv10 (run nested ms s) /\ Inv10b (run nested ms s) /\ In (EvStopEnd k) (trace (sh (run nested ms s))) /\ starts k (trace (sh (run nested ms s))) = l); [intros K; apply K|].
    apply (stays (fun s => Inv10 s /\ Inv10b s /\ In (EvStopEnd k) (trace (sh s)) /\ starts k (trace (sh s)) = l)); [|exact I0|auto].
    intros s1 s2 I1 (A1 & B1' & C1 & D1) T; split; [eapply Inv10_trans; eassumption|]; split; [eapply Inv10b_trans; eassumption|].
    split; [|rewrite (dead_trans nested s1 s2 k); assumption].
    destruct T as (l1 & x & l2 & x' & g' & new & E & H & ->); cbn [sh]; destruct (lm_ext _ _ _ _ _ _ _ _ H) as (es & ->); apply in_or_app; left; exact C1.
  Qed.
  Lemma late_stays : forall a k x r e0, hd_error (astack x) = Some (FWrite (W6 k) r) -> room e0 = false -> e_multi e0 = true ->
    forall s, Inv s -> In (EvStopEnd k) (trace (sh s)) -> nth_error (actors s) a = Some x -> nth_error (engs (sh s)) k = Some e0 ->
    forall ms, nth_error (actors (run nested ms s)) a = Some x.
  Proof.
    intros a k x r e0 HX RM MU s I0 SE A Ee ms.
    cut (nth_error (actors (run nested ms s)) a = Some x /\ In (EvStopEnd k) (trace (sh (run nested ms s))) /\
         exists e, nth_error (engs (sh (run nested ms s))) k = Some e /\ room e = false /\ e_multi e = true); [intros K; apply K|].
    apply (stays (fun s => nth_error (actors s) a = Some x /\ In (EvStopEnd k) (trace (sh s)) /\ exists e, nth_error (engs (sh s)) k = Some e /\ room e = false /\ e_multi e = true)); [|exact I0|eauto 6].
    clear s I0 A SE Ee ms e0 RM MU; intros s s' I0 (A & SE & e & Ee & RM & MU) (l1 & z & l2 & z' & g' & new & E & H & ->); cbn [actors sh].
    assert (is_worker_of k z -> over z) as OV by (apply (worker_over s k e I0 SE Ee); rewrite E; apply in_mid).
    rewrite E in A; destruct (nth_old l1 l2 new z z' a _ A) as [(_ & -> & _)|(_ & A')].
    { exfalso; rewrite <- E in A; destruct I0 as (_ & (IE & _) & _); destruct (top_base _ _ _ _ (IE _ _ A) HX) as (bb & st & Z & K); pose proof (lm_top _ _ _ _ _ _ _ H _ _ _ Z K) as (e1 & Y1 & Y2); rewrite Ee in Y1; injection Y1 as <-; rewrite Y2 in RM by exact MU; discriminate RM. }
    split; [exact A'|]; split; [destruct (lm_ext _ _ _ _ _ _ _ _ H) as (es & ->); apply in_or_app; left; exact SE|].
    clear A A' E; set (g := sh s) in *; clearbody g.
    assert (forall m, engs m = engs g -> exists e, nth_error (engs m) k = Some e /\ room e = false /\ e_multi e = true) as Same by (intros m ->; eauto).
    mcases H; try (apply Same; try reflexivity; apply store_engs); proj; cbn [is_worker_of over abase astack] in *;
      try (rewrite nth_error_app1 by (apply nth_error_Some; congruence); eauto; fail);
      rewrite nth_error_upd; match goal with |- context [Nat.eqb k ?kk] => destruct (Nat.eqb_spec k kk) as [<-|N] end; eauto;
      match goal with Q : nth_error (engs g) k = Some ?ee |- _ => assert (ee = e) by congruence; subst ee end; try congruence.
    - rewrite Ee; eexists; split; [reflexivity|]; split; [exact RM|exact MU].
    - rewrite Ee; eexists; split; [reflexivity|]; split; [exact RM|exact MU].
  Qed.

  (** *** What the stopping of an instance has done *)
  Lemma puts_prefix : forall k t1 t2, exists l, puts k (t1 ++ t2) = puts k t1 ++ l.
  Proof. intros k t1 t2; unfold puts; rewrite pick_app; eauto. Qed.
  Lemma stop_done : forall progs p q s k t1 t2, reach progs p q s -> trace (sh s) = t1 ++ EvStopBegin k :: t2 -> In (EvStopEnd k) t2 ->
    Permutation (dones k (trace (sh s))) (starts k (trace (sh s))) /\ exists l, starts k (trace (sh s)) = puts k t1 ++ l.
  Proof.
    intros progs p q s k t1 t2 R T Hk; pose proof (Inv_reachable nested progs p q s R) as I0.
    assert (In (EvStopEnd k) (trace (sh s))) as SE by (rewrite T; apply in_or_app; right; right; exact Hk).
    pose proof (Inv10_reach nested progs p q s R) as I10; pose proof (Inv10b_reach nested progs p q s R) as I10b.
    pose proof I0 as (_ & _ & (_ & _ & C & _ & F & _) & _ & _ & _ & _ & (_ & _ & I5) & (_ & I6) & _).
    destruct (nth_error (engs (sh s)) k) as [e|] eqn:Ee; [|specialize (I5 k SE); apply nth_error_None in Ee; lia].
    pose proof (stopped_multi s k e I10 I10b SE Ee) as M; split.
    - apply count_perm; intros r; rewrite (C k r), (no_run s k e I0 SE Ee M r); lia.
    - specialize (I6 k t1 t2 T Hk); specialize (F k); rewrite T in F at 1; destruct (puts_prefix k t1 (EvStopBegin k :: t2)) as (l & L); rewrite L in F.
      set (S := starts k (trace (sh s))) in *; clearbody S; clear - I6 F; revert S F I6; generalize (puts k t1) as P, (queue_of (sh s) k) as Q; intros P Q; induction P as [|x P IH]; intros S F L.
      + exists S; reflexivity.
      + destruct S as [|y S]; [cbn in L; lia|]; cbn in F, L; injection F as <- F; destruct (IH S F) as (l' & ->); [lia|]; exists l'; reflexivity.
  Qed.
End More.

(** *** What has been done when everything is at rest *)
Lemma rest_done : forall progs p q s k e, reachable quiet progs p q s -> forallb (settled (sh s)) (actors s) = true ->
  (forall x, In x (actors s) -> is_thread x -> astack x = [] \/ exists k, late s k x) ->
  nth_error (engs (sh s)) k = Some e -> (e_multi e = true -> ~ In (EvStopBegin k) (trace (sh s))) -> Permutation (dones k (trace (sh s))) (puts k (trace (sh s))).
Proof.
  intros progs p q s k e R ST TH Ee NS; pose proof (Inv_reachable quiet progs p q s R) as (_ & (IE & IB & _) & (_ & _ & C & _ & F & _) & _ & _ & _ & (I4 & _) & _).
  rewrite forallb_forall in ST; apply count_perm; intros r; rewrite (F k), times_app, (C k r).
  assert (queue_of (sh s) k = []) as ->.
  { unfold queue_of; rewrite Ee; destruct (IB k e Ee) as (M1 & _ & M2 & W); destruct (e_multi e) eqn:M; [|auto].
    destruct M1 as (M1 & _); specialize (M1 eq_refl); destruct (W 0 M1) as (w & Hw & SW).
    pose proof (ST w (nth_error_In _ _ Hw)) as Sw; pose proof (IE _ _ Hw) as (_ & OK); destruct w as [[|k1 j1 pc] st]; [discriminate SW|]; cbn in SW; injection SW as -> ->.
    cbn [abase astack base_ok] in OK; destruct OK as (e1 & E1 & _ & _ & _ & _ & X); rewrite Ee in E1; injection E1 as <-.
    unfold settled in Sw; cbn [abase] in Sw; destruct pc; try discriminate Sw.
    - apply andb_prop in Sw; destruct Sw as (Sw & _); unfold no_queue in Sw; rewrite Ee in Sw; destruct (e_queue e); [reflexivity|discriminate Sw].
    - exfalso; apply (NS eq_refl); apply (I4 k e 0 Ee); apply X; reflexivity. }
  rewrite times_nil; assert (tot (a_run k r) (actors s) = 0) as ->; [|lia].
  apply tot_zero; intros x Hx; unfold a_run; specialize (ST x Hx); pose proof (nok_reach progs p q s R x Hx) as NO.
  destruct x as [[cs pc|k1 j1 pc] st]; unfold settled, n_ok in *; cbn [abase astack] in *.
  - destruct (TH _ Hx I) as [HS|(k1 & r1 & e1 & HD & _)]; [cbn in HS; rewrite HS; reflexivity|]; cbn in HD; destruct st as [|f st]; [discriminate HD|]; injection HD as ->; destruct st as [|[] ]; try (destruct NO; fail); reflexivity.
  - apply In_nth_error in Hx; destruct Hx as (a & Ha); destruct (IE a _ Ha) as (_ & OK); cbn [abase astack base_ok] in OK; destruct OK as (e1 & _ & _ & _ & _ & K & _).
    destruct pc; try discriminate ST; rewrite K by discriminate; reflexivity.
Qed.
