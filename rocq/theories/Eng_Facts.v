(** Consequences of the invariants of the engine, and some further invariants on top of them. *)
From Verif Require Import Base Eng_Model Eng_Spec Eng_Moves Eng_Inv Eng_Struct Eng_Trace Eng_Stop Eng_Flush Eng_Hook.
From Coq Require Import Permutation.

Section Facts.
  Variable nested : nat -> list nat.
  Notation trans := (trans nested).

  (** To show something of all reachable states when [Inv] is known of them. *)
  Lemma reach_inv : forall (P : state -> Prop) progs p q, P (init progs p q) ->
    (forall s s', Inv s -> Inv s' -> P s -> trans s s' -> P s') -> forall s, reachable nested progs p q s -> P s.
  Proof.
    intros P progs p q H0 HS s (ms & ->).
    assert (Inv (run nested ms (init progs p q)) /\ P (run nested ms (init progs p q))) as [_ K]; [|exact K].
    apply (run_inv nested (fun s => Inv s /\ P s)); [|split; [apply Inv_init|exact H0]].
    intros s1 s2 [I1 P1] T; pose proof (Inv_trans nested s1 s2 I1 T) as I2; split; [exact I2|apply (HS s1); assumption].
  Qed.

  (** *** Only multi-threaded instances are stopped *)
  Definition Inv10 (s : state) : Prop := forall k e, In (EvStopBegin k) (trace (sh s)) -> nth_error (engs (sh s)) k = Some e -> e_multi e = true.
  Definition Inv10b (s : state) : Prop := forall k, In (EvStopEnd k) (trace (sh s)) -> In (EvStopBegin k) (trace (sh s)).
  Lemma lm_begin : forall ex n x g x' g' new, lm nested ex n x g x' g' new -> exists es, trace g' = trace g ++ es /\
    forall k, In (EvStopBegin k) es -> exists e, nth_error (engs g) k = Some e /\ e_multi e = true.
  Proof.
    intros ex n x g x' g' new H; mcases H; proj; rewrite ?store_trace;
      try (exists []; rewrite app_nil_r; split; [reflexivity|intros k1 []]; fail);
      (eexists; split; [reflexivity|]; intros k1 Hk; cbn [In] in Hk; try (intuition discriminate)).
    all: destruct Hk as [Hk|[]]; injection Hk as <-; eauto.
  Qed.
  Lemma Inv10_trans : forall s s', Inv s -> Inv10 s -> trans s s' -> Inv10 s'.
  Proof.
    intros s s' (_ & (IE & _) & _ & _ & _ & I3 & _) A (l1 & x & l2 & x' & g' & new & E & H & ->) k e'; cbn [sh].
    assert (actor_ok (sh s) (length l1) x) as Ax by (apply IE; rewrite E, nth_error_app2, Nat.sub_diag by lia; reflexivity).
    destruct (lm_begin _ _ _ _ _ _ _ H) as (es & -> & TB); intros Hk E'; apply in_app_or in Hk.
    assert (exists e, nth_error (engs (sh s)) k = Some e /\ e_multi e = true) as (e & Ee & M).
    { destruct Hk as [Hk|Hk]; [|apply TB; exact Hk]; destruct (I3 k Hk) as (L & _).
      destruct (nth_error (engs (sh s)) k) as [e|] eqn:N; [exists e; split; [reflexivity|apply (A k); assumption]|apply nth_error_None in N; lia]. }
    destruct (old_eng _ _ _ _ _ _ _ _ H _ Ax k e' E') as (e0 & E0 & (LM & _)); [apply nth_error_Some; congruence|congruence].
  Qed.
  Lemma Inv10_reach : forall progs p q s, reachable nested progs p q s -> Inv10 s.
  Proof. intros progs p q s; apply reach_inv; [intros k e []|]. intros s1 s2 I1 _; apply Inv10_trans; exact I1. Qed.

  Lemma Inv10b_trans : forall s s', Inv s -> Inv10b s -> trans s s' -> Inv10b s'.
  Proof.
    intros s s' (_ & _ & _ & _ & I2 & _) A (l1 & x & l2 & x' & g' & new & E & H & ->) k; cbn [sh].
    destruct (lm_es _ _ _ _ _ _ _ _ H) as (es & -> & _ & TE); intros Hk; apply in_or_app; left; apply in_app_or in Hk; destruct Hk as [Hk|Hk]; [apply A; exact Hk|].
    destruct (TE k Hk) as (_ & _ & i & e & S & _); apply (I2 x) with (p := PJoin k i); [rewrite E; apply in_mid|exact S|reflexivity].
  Qed.
  Lemma Inv10b_reach : forall progs p q s, reachable nested progs p q s -> Inv10b s.
  Proof. intros progs p q s; apply reach_inv; [intros k []|]. intros s1 s2 I1 _; apply Inv10b_trans; exact I1. Qed.
  Lemma stopped_multi : forall s k e, Inv10 s -> Inv10b s -> In (EvStopEnd k) (trace (sh s)) -> nth_error (engs (sh s)) k = Some e -> e_multi e = true.
  Proof. intros s k e A B Hk; apply A, B, Hk. Qed.

  (** *** What a completed stop means *)
  Lemma worker_over : forall s k e, Inv s -> In (EvStopEnd k) (trace (sh s)) -> nth_error (engs (sh s)) k = Some e ->
    forall x, In x (actors s) -> is_worker_of k x -> over x.
  Proof.
    intros s k e (_ & (IE & _) & _ & _ & _ & _ & _ & (_ & I5 & _) & _) Hk Ee x Hx W.
    apply In_nth_error in Hx; destruct Hx as (a & Ha); destruct (IE a x Ha) as (_ & B).
    destruct x as [[cs pc|k0 j pc] st]; [destruct W|]; cbn in W; subst k0; cbn [abase base_ok astack] in B.
    destruct B as (e1 & E1 & M & -> & J & S & X); rewrite Ee in E1; injection E1 as <-.
    specialize (I5 k e Hk Ee j J J); unfold is_exited in I5; rewrite Ha in I5; destruct pc; try discriminate I5.
    cbn; apply S; discriminate.
  Qed.
  Lemma no_run : forall s k e, Inv s -> In (EvStopEnd k) (trace (sh s)) -> nth_error (engs (sh s)) k = Some e -> e_multi e = true ->
    forall r, tot (a_run k r) (actors s) = 0.
  Proof.
    intros s k e I Hk Ee M r; apply tot_zero; intros x Hx; apply tot_zero; intros f Hf; destruct f as [pc r0|k0 r0 rest]; [reflexivity|]; cbn [f_run].
    destruct (Nat.eqb_spec k0 k) as [->|]; [exfalso|reflexivity].
    pose proof I as (_ & (IE & _) & _); apply In_nth_error in Hx as Hx2; destruct Hx2 as (a & Ha); destruct (IE a x Ha) as (SO & _).
    assert (forall st, stack_ok (sh s) (abase x) st -> In (FExec k r0 rest) st -> exists j, abase x = BWorker k j KBusy) as K.
    { induction st as [|f st IH]; intros Hs Hf2; [destruct Hf2|].
      destruct Hf2 as [->|Hf2]; [|apply IH; [apply (stack_pop _ _ f); exact Hs|exact Hf2]].
      cbn in Hs; destruct Hs as (e1 & E1 & K & _); rewrite Ee in E1; injection E1 as <-; rewrite M in K; apply K. }
    destruct (K _ SO Hf) as (j & AB).
    assert (over x) as O by (eapply worker_over; [exact I|exact Hk|exact Ee|exact Hx|unfold is_worker_of; rewrite AB; reflexivity]).
    unfold over in O; rewrite AB in O; exact O.
  Qed.

  Lemma count_perm : forall l l', (forall r, times r l = times r l') -> Permutation l l'.
  Proof. intros l l' H; apply (Permutation_count_occ Nat.eq_dec); exact H. Qed.

  (** A stopped instance never starts anything again. *)
  Lemma dead_trans : forall s s' k, Inv s -> Inv10 s -> Inv10b s -> In (EvStopEnd k) (trace (sh s)) -> trans s s' -> starts k (trace (sh s')) = starts k (trace (sh s)).
  Proof.
    intros s s' k I I10 I10b Hk (l1 & x & l2 & x' & g' & new & E & H & ->); cbn [sh].
    pose proof I as (_ & _ & _ & _ & _ & _ & _ & (_ & _ & I5) & _).
    assert (In x (actors s)) as Ix by (rewrite E; apply in_mid).
    destruct (nth_error (engs (sh s)) k) as [e|] eqn:N; [|specialize (I5 k Hk); apply nth_error_None in N; lia].
    assert (is_worker_of k x -> over x) as W by (intros Q; eapply worker_over; eassumption).
    pose proof (stopped_multi s k e I10 I10b Hk N) as M.
    clear - H W M N; mcases H; proj; rewrite ?store_trace; ev; try reflexivity; try congruence.
    exfalso; apply W; reflexivity.
  Qed.

  (** *** Counting executions *)
  Definition f_runs (r : nat) (f : frame) : nat := match f with FExec _ r' _ => times r [r'] | _ => 0 end.
  Definition a_runs r (x : act) : nat := tot (f_runs r) (astack x).
  Definition InvR (s : state) : Prop := forall r, times r (all_starts (trace (sh s))) = times r (all_dones (trace (sh s))) + tot (a_runs r) (actors s).
  Lemma runs_local : forall ex n x g x' g' new, lm nested ex n x g x' g' new -> forall r o,
    times r (all_starts (trace g)) = times r (all_dones (trace g)) + a_runs r x + o ->
    times r (all_starts (trace g')) = times r (all_dones (trace g')) + a_runs r x' + tot (a_runs r) new + o.
  Proof.
    intros ex n x g x' g' new H r0 o Q; mcases H; rewrite ?workers_zero by reflexivity; proj; rewrite ?store_trace;
      unfold a_runs in *; cbn [astack] in *; rewrite ?tot_cons, ?tot_nil in *; cbn [f_runs] in *; ev; lia.
  Qed.
  Lemma InvR_reach : forall progs p q s, reachable nested progs p q s -> InvR s.
  Proof.
    intros progs p q s; apply reach_inv.
    - intros r; unfold init; cbn [sh actors trace]; rewrite tot_zero; [reflexivity|]; intros x Hx; apply in_map_iff in Hx; destruct Hx as (cs & <- & _); reflexivity.
    - intros s1 s2 _ _ A (l1 & x & l2 & x' & g' & new & E & H & ->) r; cbn [sh actors]; specialize (A r); rewrite E in A.
      rewrite !tot_app, !tot_cons in *; rewrite tot_app.
      rewrite (runs_local _ _ _ _ _ _ _ H r (tot (a_runs r) l1 + tot (a_runs r) l2)); lia.
  Qed.

  (** A record executed by a synchronous instance is on top of its own write. *)
  Lemma sync_stack : forall g b r n st, length st <= n -> stack_ok g b st ->
    (forall k e rest, In (FExec k r rest) st -> nth_error (engs g) k = Some e -> e_multi e = false) -> tot (f_runs r) st <= tot (f_post r) st.
  Proof.
    intros g b r; induction n as [|n IH]; intros st L S M; [destruct st; [reflexivity|cbn in L; lia]|].
    destruct st as [|f st]; [reflexivity|]; cbn [length] in L; rewrite !tot_cons; destruct f as [pc r0|k r0 rest].
    - cbn [f_runs]; assert (tot (f_runs r) st <= tot (f_post r) st); [|lia].
      apply IH; [lia|apply (stack_pop _ _ _ _ S)|]; intros k e rest Q; apply (M k e rest); right; exact Q.
    - cbn [f_runs f_post]; cbn in S; destruct S as (e & E & K & S).
      destruct (Nat.eq_dec r0 r) as [->|N].
      + rewrite (M k e rest (or_introl eq_refl) E) in K; destruct K as (pc & l' & -> & W); rewrite !tot_cons; cbn [f_runs f_post].
        assert (tot (f_runs r) l' <= tot (f_post r) l').
        { apply IH; [cbn in L; lia|apply (stack_pop _ _ _ _ S)|]; intros k1 e1 rest1 Q; apply (M k1 e1 rest1); right; right; exact Q. }
        destruct W as [->| ->]; cbn [w_pre]; lia.
      + assert (times r [r0] = 0) as -> by (unfold times; cbn; destruct (Nat.eq_dec r0 r); congruence).
        assert (tot (f_runs r) st <= tot (f_post r) st); [|lia].
        apply IH; [lia|exact S|]; intros k1 e1 rest1 Q; apply (M k1 e1 rest1); right; exact Q.
  Qed.
  Lemma tot_mono : forall {A} (f g : A -> nat) l, (forall x, In x l -> f x <= g x) -> tot f l <= tot g l.
  Proof.
    induction l as [|x l IH]; intros H; [reflexivity|]; rewrite !tot_cons.
    pose proof (H x (or_introl eq_refl)); specialize (IH (fun y Q => H y (or_intror Q))); lia.
  Qed.
  Lemma run_starts : forall s k r x rest, Inv s -> In x (actors s) -> In (FExec k r rest) (astack x) -> 0 < times r (starts k (trace (sh s))).
  Proof.
    intros s k r x rest (_ & _ & (_ & _ & C & _) & _) Hx Hf; specialize (C k r).
    pose proof (tot_le (a_run k r) _ _ Hx); unfold a_run in *; pose proof (tot_le (f_run k r) _ _ Hf); cbn [f_run] in *.
    rewrite Nat.eqb_refl in *; assert (times r [r] = 1) by (unfold times; cbn; destruct (Nat.eq_dec r r); congruence); lia.
  Qed.
  Lemma starts_puts : forall s k r, Inv s -> times r (starts k (trace (sh s))) <= times r (puts k (trace (sh s))).
  Proof. intros s k r (_ & _ & (_ & _ & _ & _ & F & _) & _); rewrite (F k), times_app; lia. Qed.
  Lemma sync_rets : forall s r, Inv s -> InvR s ->
    (forall k e, nth_error (engs (sh s)) k = Some e -> e_multi e = true -> times r (puts k (trace (sh s))) = 0) ->
    times r (rets (trace (sh s))) <= times r (all_dones (trace (sh s))).
  Proof.
    intros s r I R M; pose proof I as (_ & (IE & IB & _) & (_ & B & _ & D & F & _) & _); specialize (B r); specialize (D r); specialize (R r).
    assert (queued r (sh s) = 0) as Q.
    { unfold queued; apply tot_zero; intros e He; apply In_nth_error in He; destruct He as (k & Hk).
      destruct (e_multi e) eqn:ME; [|destruct (IB k e Hk) as (_ & _ & K & _); rewrite (K ME); reflexivity].
      specialize (M k e Hk ME); specialize (F k); rewrite F, times_app in M; unfold queue_of in M; rewrite Hk in M; lia. }
    assert (tot (a_runs r) (actors s) <= tot (a_post r) (actors s)); [|lia].
    apply tot_mono; intros x Hx; pose proof Hx as Hx2; apply In_nth_error in Hx2; destruct Hx2 as (a & Ha); destruct (IE a x Ha) as (SO & _).
    apply (sync_stack (sh s) (abase x) r (length (astack x))); [lia|exact SO|]; intros k e rest Hf Ee.
    destruct (e_multi e) eqn:ME; [exfalso|reflexivity].
    pose proof (run_starts s k r x rest I Hx Hf); pose proof (starts_puts s k r I); specialize (M k e Ee ME); lia.
  Qed.

  (** *** Prefixes of the trace *)
  Lemma lm_short : forall ex n x g x' g' new, lm nested ex n x g x' g' new -> exists es, trace g' = trace g ++ es /\
    (es = [] \/ (exists e, es = [e]) \/ exists k r, es = [EvPut k r; EvStart k r]).
  Proof.
    intros ex n x g x' g' new H; mcases H; proj; rewrite ?store_trace;
      try (exists []; rewrite app_nil_r; auto; fail); eexists; split; [reflexivity|eauto..].
  Qed.
  Lemma prefix_cases : forall (tr es t1 t2 : list event), tr ++ es = t1 ++ t2 -> (exists t, tr = t1 ++ t) \/ (exists u, t1 = tr ++ u /\ es = u ++ t2).
  Proof.
    induction tr as [|e tr IH]; intros es t1 t2 H; [right; exists t1; auto|].
    destruct t1 as [|e1 t1]; [left; exists (e :: tr); reflexivity|]; cbn in H; injection H as <- H.
    destruct (IH _ _ _ H) as [(t & ->)|(u & -> & ->)]; [left; exists t; reflexivity|right; exists u; auto].
  Qed.
  Definition InvP (s : state) : Prop := forall t1 t2 r, trace (sh s) = t1 ++ t2 ->
    times r (all_starts t1) <= times r (all_puts t1) /\ times r (all_puts t1) <= times r (calls t1).
  Lemma InvP_now : forall s r, Inv s -> times r (all_starts (trace (sh s))) <= times r (all_puts (trace (sh s))) /\ times r (all_puts (trace (sh s))) <= times r (calls (trace (sh s))).
  Proof. intros s r (_ & _ & (A & _ & _ & D & _) & _); specialize (A r); specialize (D r); lia. Qed.
  Lemma InvP_reach : forall progs p q s, reachable nested progs p q s -> InvP s.
  Proof.
    intros progs p q s; apply reach_inv.
    - intros t1 t2 r H; cbn in H; destruct t1; [split; reflexivity|discriminate H].
    - intros s1 s2 I1 I2 A (l1 & x & l2 & x' & g' & new & E & H & ->) t1 t2 r; cbn [sh actors].
      destruct (lm_short _ _ _ _ _ _ _ H) as (es & T & K); rewrite T; intros Q.
      destruct (prefix_cases _ _ _ _ Q) as [(t & Q1)|(u & -> & Q1)]; [eapply A; exact Q1|].
      pose proof (InvP_now _ r I1) as N1; pose proof (InvP_now _ r I2) as N2; cbn [sh] in N2; rewrite T in N2.
      destruct K as [->|[(e & ->)|(k & r0 & ->)]].
      + destruct u; [rewrite app_nil_r; exact N1|discriminate Q1].
      + destruct u as [|e1 u]; [rewrite app_nil_r; exact N1|]; injection Q1 as <- Q1; destruct u; [exact N2|discriminate Q1].
      + destruct u as [|e1 u]; [rewrite app_nil_r; exact N1|]; injection Q1 as <- Q1.
        destruct u as [|e2 u]; [|injection Q1 as <- Q1; destruct u; [exact N2|discriminate Q1]].
        unfold all_starts, all_puts, calls in *; rewrite !pick_app in *; cbn [pick] in *; rewrite ?app_nil_r, !times_app, ?times_nil in *; lia.
  Qed.

  (** *** One worker *)
  Definition running (k : nat) (st : list frame) : list nat :=
    flat_map (fun f => match f with FExec k' r _ => if Nat.eqb k' k then [r] else [] | _ => [] end) st.
  Definition InvO (s : state) : Prop := forall k e w, nth_error (engs (sh s)) k = Some e -> e_multi e = true -> e_count e = 1 ->
    nth_error (actors s) (e_first e) = Some w -> starts k (trace (sh s)) = dones k (trace (sh s)) ++ running k (astack w).

  Definition InvK (s : state) : Prop := forall k, length (engs (sh s)) <= k -> puts k (trace (sh s)) = [].
  Lemma InvK_reach : forall progs p q s, reachable nested progs p q s -> InvK s.
  Proof.
    intros progs p q s; apply reach_inv; [intros k _; reflexivity|].
    intros s1 s2 _ _ A (l1 & x & l2 & x' & g' & new & E & H & ->) k; cbn [sh actors]; intros L.
    assert (puts k (trace (sh s1)) = []) as P.
    { apply A; destruct (lm_gle _ _ _ _ _ _ _ _ H) as (_ & GL & _); lia. }
    clear - H P L; mcases H; proj; rewrite ?store_trace; ev; rewrite ?P; try reflexivity;
      match goal with N : nth_error (engs ?gg) ?kk = Some _ |- _ => exfalso; assert (kk < length (engs gg)) by (apply nth_error_Some; congruence); rewrite ?upd_length in L; lia end.
  Qed.
  Lemma none_starts : forall s k, Inv s -> InvK s -> length (engs (sh s)) <= k -> starts k (trace (sh s)) = [] /\ dones k (trace (sh s)) = [].
  Proof.
    intros s k (_ & _ & (_ & _ & C & _ & F & _) & _) K L; specialize (F k); rewrite (K k L) in F; symmetry in F; apply app_eq_nil in F; destruct F as [F _].
    split; [exact F|]; destruct (dones k (trace (sh s))) as [|r l] eqn:D; [reflexivity|exfalso].
    specialize (C k r); rewrite F, D in C; unfold times in C; cbn in C; destruct (Nat.eq_dec r r); [lia|congruence].
  Qed.

  Lemma running_app : forall k a b, running k (a ++ b) = running k a ++ running k b.
  Proof. intros; unfold running; apply flat_map_app. Qed.
  Lemma running_cons : forall k f l, running k (f :: l) = running k [f] ++ running k l.
  Proof. intros; change (f :: l) with ([f] ++ l); apply running_app. Qed.
  Lemma multi_exec : forall g a x k e r rest, actor_ok g a x -> In (FExec k r rest) (astack x) -> nth_error (engs g) k = Some e -> e_multi e = true -> is_worker_of k x.
  Proof.
    intros g a x k e r rest (SO & _) Hf Ee M.
    assert (forall st, stack_ok g (abase x) st -> In (FExec k r rest) st -> exists j, abase x = BWorker k j KBusy) as K.
    { induction st as [|f st IH]; intros Hs Hf2; [destruct Hf2|].
      destruct Hf2 as [->|Hf2]; [|apply IH; [apply (stack_pop _ _ f); exact Hs|exact Hf2]].
      cbn in Hs; destruct Hs as (e1 & E1 & K & _); rewrite Ee in E1; injection E1 as <-; rewrite M in K; apply K. }
    destruct (K _ SO Hf) as (j & AB); unfold is_worker_of; rewrite AB; reflexivity.
  Qed.
  Lemma order_local : forall ex n x g x' g' new a, lm nested ex n x g x' g' new -> actor_ok g a x -> forall k e, nth_error (engs g) k = Some e -> e_multi e = true ->
    (starts k (trace g) = dones k (trace g) ++ running k (astack x) -> starts k (trace g') = dones k (trace g') ++ running k (astack x')) /\
    ((starts k (trace g') = starts k (trace g) /\ dones k (trace g') = dones k (trace g)) \/ is_worker_of k x).
  Proof.
    intros ex n x g x' g' new a H A k1 e1 E1 M1.
    pose proof (fun r rest Q => multi_exec g a x k1 e1 r rest A Q E1 M1) as ME.
    mcases H; proj; rewrite ?store_trace; cbn [astack] in *; ev;
      repeat match goal with |- context [running k1 (?f :: ?l :: ?m)] => rewrite (running_cons k1 f (l :: m)) end;
      repeat match goal with |- context [running k1 (?f :: ?l)] => first [constr_eq l (@nil frame); fail 1|rewrite (running_cons k1 f l)] end;
      cbn [running flat_map app]; try (split; [intros Q; rewrite ?Q; rewrite <- ?app_assoc; rewrite ?app_nil_r; reflexivity|left; split; reflexivity]); try congruence.
    all: rewrite ?Nat.eqb_refl; repeat match goal with N : ?a <> ?b |- context [Nat.eqb ?a ?b] => apply Nat.eqb_neq in N; rewrite N end.
    all: try (match goal with |- context [Nat.eqb ?a ?b] => destruct (Nat.eqb_spec a b) as [->|N]; [congruence|] end).
    all: cbn [app]; try (split; [intros Q; rewrite ?Q; rewrite <- ?app_assoc; rewrite ?app_nil_r; reflexivity|left; split; reflexivity]); try congruence.
    - split; [|right; eapply ME; left; reflexivity]; intros ->.
      destruct A as (SO & _); cbn [abase astack stack_ok] in SO; destruct SO as (e & Ee & K & _); rewrite E1 in Ee; injection Ee as <-; rewrite M1 in K.
      destruct K as (-> & _); cbn; rewrite app_nil_r; reflexivity.
    - split; [intros ->; reflexivity|right; reflexivity].
  Qed.

  Lemma InvO_reach : forall progs p q s, reachable nested progs p q s -> InvO s.
  Proof.
    intros progs p q s Hr; assert (InvK s /\ InvO s) as [_ K]; [|exact K]; revert s Hr; apply reach_inv.
    - split; [intros k _; reflexivity|]; intros [|k] e w H; discriminate H.
    - intros s1 s2 I1 I2 (K & A) T.
      assert (InvK s2) as K2.
      { clear A; pose proof T as (l1 & x & l2 & x' & g' & new & E & H & ->); intros k; cbn [sh actors]; intros L.
        assert (puts k (trace (sh s1)) = []) as P.
        { apply K; destruct (lm_gle _ _ _ _ _ _ _ _ H) as (_ & GL & _); lia. }
        clear - H P L; mcases H; proj; rewrite ?store_trace; ev; rewrite ?P; try reflexivity;
          match goal with N : nth_error (engs ?gg) ?kk = Some _ |- _ => exfalso; assert (kk < length (engs gg)) by (apply nth_error_Some; congruence); rewrite ?upd_length in L; lia end. }
      split; [exact K2|]; pose proof T as (l1 & x & l2 & x' & g' & new & E & H & ->); intros k e' w E' M C Hw; cbn [sh actors] in *.
      pose proof I1 as (_ & (IE & IB & _) & _).
      assert (actor_ok (sh s1) (length l1) x) as Ax by (apply IE; rewrite E, nth_error_app2, Nat.sub_diag by lia; reflexivity).
      destruct (lm_eng _ _ _ _ _ _ _ _ H _ Ax k e' E') as [(e & E1 & (LM & _ & LF & LC & _) & _)|(-> & -> & N)].
      + assert (e_multi e = true) as M1 by congruence; assert (e_count e = 1) as C1 by congruence; rewrite LF in Hw.
        destruct (order_local _ _ _ _ _ _ _ _ H Ax k e E1 M1) as (O1 & O2).
        destruct (IB k e E1) as (_ & _ & _ & IW); destruct (IW 0 ltac:(lia)) as (y & Hy & Sy); rewrite Nat.add_0_r, E in Hy.
        assert (starts k (trace (sh s1)) = dones k (trace (sh s1)) ++ running k (astack y)) as O by (apply (A k e y E1 M1 C1); rewrite E; exact Hy).
        destruct (nth_old l1 l2 new x x' (e_first e) y Hy) as [(Q1 & -> & Q2)|(Q1 & Q2)]; rewrite Hw in Q2; injection Q2 as ->.
        * apply O1; exact O.
        * destruct O2 as [(O2 & O3)|O2]; [rewrite O2, O3; exact O|exfalso].
          destruct x as [[cs pc|k0 j pc] st]; [destruct O2|]; cbn in O2; subst k0; destruct Ax as (_ & (e2 & Q3 & _ & Q4 & Q5 & _)); rewrite E1 in Q3; injection Q3 as <-.
          apply Q1; rewrite Q4; lia.
      + assert (exists g2, starts (length (engs (sh s1))) (trace g') = starts (length (engs (sh s1))) (trace g2) /\ dones (length (engs (sh s1))) (trace g') = dones (length (engs (sh s1))) (trace g2) /\ g2 = sh s1) as (g2 & S1 & S2 & ->).
        { exists (sh s1); assert (g' = load (sh s1) (length (actors s1))) as ->.
          { clear - H E'; mcases H; try reflexivity; exfalso; proj; rewrite ?store_engs in E';
              (assert (length (engs g) < length (engs g)) by (match type of E' with nth_error ?l _ = _ => apply (Nat.lt_le_trans _ (length l)); [apply nth_error_Some; rewrite E'; discriminate|rewrite ?upd_length; lia] end)); lia. }
          cbn [load trace]; ev; auto. }
        destruct (none_starts s1 (length (engs (sh s1))) I1 K (le_n _)) as (S3 & S4); rewrite S1, S2, S3, S4; cbn [app].
        cbn [new_eng e_first] in Hw; rewrite N in Hw.
        replace (l1 ++ x' :: l2 ++ new_workers (sh s1)) with ((l1 ++ x' :: l2) ++ new_workers (sh s1)) in Hw by (rewrite <- app_assoc; reflexivity).
        rewrite E, nth_error_app2 in Hw by (rewrite !app_length; cbn; lia).
        apply nth_error_In, in_map_iff in Hw; destruct Hw as (j & <- & _); reflexivity.
  Qed.
End Facts.
