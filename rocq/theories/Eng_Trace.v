(** Invariants of the engine that connect the observable events with the state. *)
From Verif Require Import Base Eng_Model Eng_Spec Eng_Moves Eng_Inv Eng_Struct.

Lemma pick_app : forall f a b, pick f (a ++ b) = pick f a ++ pick f b.
Proof. induction a as [|e a IH]; intros b; [reflexivity|]; cbn; destruct (f e); cbn; rewrite IH; reflexivity. Qed.
Lemma times_app : forall r a b, times r (a ++ b) = times r a + times r b.
Proof. intros; unfold times; apply count_occ_app. Qed.
Lemma times_cons : forall r x l, times r (x :: l) = times r [x] + times r l.
Proof. intros; change (x :: l) with ([x] ++ l); apply times_app. Qed.
Lemma times_nil : forall r, times r [] = 0.
Proof. reflexivity. Qed.

(** Frames: a write that has not handed its record over; that has; executing a record. *)
Definition w_pre (pc : wpc) : bool := match pc with W7 | B4 => false | _ => true end.
Definition f_pre (r : nat) (f : frame) : nat := match f with FWrite pc r' => if w_pre pc then times r [r'] else 0 | _ => 0 end.
Definition f_post (r : nat) (f : frame) : nat := match f with FWrite pc r' => if w_pre pc then 0 else times r [r'] | _ => 0 end.
Definition f_run (k r : nat) (f : frame) : nat := match f with FExec k' r' _ => if Nat.eqb k' k then times r [r'] else 0 | _ => 0 end.
Definition a_pre r (x : act) : nat := tot (f_pre r) (astack x).
Definition a_post r (x : act) : nat := tot (f_post r) (astack x).
Definition a_run k r (x : act) : nat := tot (f_run k r) (astack x).
Definition queued (r : nat) (g : shared) : nat := tot (fun e => times r (e_queue e)) (engs g).
Definition queue_of (g : shared) (k : nat) : list nat := match nth_error (engs g) k with Some e => e_queue e | None => [] end.

Lemma tot_upd : forall {A} (f : A -> nat) l i x y, nth_error l i = Some y -> tot f (upd l i x) + f y = tot f l + f x.
Proof.
  induction l as [|z l IH]; intros i x y H; destruct i as [|i]; try discriminate; cbn [upd nth_error] in *; rewrite !tot_cons.
  - injection H as ->; lia.
  - specialize (IH i x y H); lia.
Qed.
Lemma queue_upd : forall g k e k2, queue_of (set_eng g k e) k2 =
  if Nat.eqb k2 k then match nth_error (engs g) k with Some _ => e_queue e | None => [] end else queue_of g k2.
Proof.
  intros g k e k2; unfold queue_of; cbn [set_eng engs]; rewrite nth_error_upd.
  destruct (Nat.eqb k2 k); [destruct (nth_error (engs g) k); reflexivity|reflexivity].
Qed.

Lemma queue_emit : forall g es k, queue_of (emit g es) k = queue_of g k.
Proof. reflexivity. Qed.

Ltac ev := unfold calls, rets, puts, starts, dones, all_puts, all_starts, all_dones, crashes, loads, inits in *; rewrite ?pick_app in *; cbn [pick] in *;
  repeat match goal with |- context [if Nat.eqb ?a ?b then Some _ else None] => destruct (Nat.eqb_spec a b) end; subst;
  rewrite ?app_nil_r, ?times_app, ?times_nil in *.

Section Trace.
  Variable nested : nat -> list nat.

  (** Sums. *)
  Lemma counts_local : forall ex n x g x' g' new, lm nested ex n x g x' g' new -> forall r k o,
    (times r (calls (trace g)) = times r (all_puts (trace g)) + times r (crashes (trace g)) + a_pre r x + o ->
     times r (calls (trace g')) = times r (all_puts (trace g')) + times r (crashes (trace g')) + a_pre r x' + tot (a_pre r) new + o) /\
    (times r (all_puts (trace g)) = times r (rets (trace g)) + a_post r x + o ->
     times r (all_puts (trace g')) = times r (rets (trace g')) + a_post r x' + tot (a_post r) new + o) /\
    (times r (starts k (trace g)) = times r (dones k (trace g)) + a_run k r x + o ->
     times r (starts k (trace g')) = times r (dones k (trace g')) + a_run k r x' + tot (a_run k r) new + o).
  Proof.
    intros ex n x g x' g' new H r0 k0 o; mcases H; rewrite ?workers_zero by reflexivity; proj; rewrite ?store_trace;
      unfold a_pre, a_post, a_run; cbn [astack]; rewrite ?tot_cons, ?tot_nil; cbn [f_pre f_post f_run w_pre];
      try (destruct (wmode g); subst pc; cbn [w_pre]);
      (split; [intros Q; ev; try lia|split; intros Q; ev; rewrite ?Nat.eqb_refl in *; try lia]).
    all: repeat match goal with N : ?a <> ?b |- context [Nat.eqb ?a ?b] => apply Nat.eqb_neq in N; rewrite N in * end; try lia.
  Qed.

  (** Queues. *)
  Lemma queues_local : forall ex n x g x' g' new a, lm nested ex n x g x' g' new -> actor_ok g a x -> forall r k,
    (times r (all_puts (trace g)) = times r (all_starts (trace g)) + queued r g ->
     times r (all_puts (trace g')) = times r (all_starts (trace g')) + queued r g') /\
    (puts k (trace g) = starts k (trace g) ++ queue_of g k -> (forall e, nth_error (engs g) k = Some e -> e_multi e = false -> e_queue e = []) ->
     puts k (trace g') = starts k (trace g') ++ queue_of g' k).
  Proof.
    intros ex n x g x' g' new a H A r0 k0.
    assert (forall g2, engs g2 = engs g -> queued r0 g2 = queued r0 g) as Q1 by (intros g2 E; unfold queued; rewrite E; reflexivity).
    assert (forall g2, engs g2 = engs g -> queue_of g2 k0 = queue_of g k0) as Q2 by (intros g2 E; unfold queue_of; rewrite E; reflexivity).
    assert (queued r0 (load g n) = queued r0 g) as Q3.
    { unfold queued; cbn [load engs]; rewrite tot_app, tot_cons, tot_nil; cbn; lia. }
    assert (queue_of (load g n) k0 = queue_of g k0) as Q4.
    { unfold queue_of; cbn [load engs]; destruct (lt_eq_lt_dec k0 (length (engs g))) as [[L|L]|L].
      - rewrite nth_error_app1 by exact L; reflexivity.
      - subst k0; rewrite nth_error_app2, Nat.sub_diag by lia; cbn.
        destruct (nth_error (engs g) (length (engs g))) eqn:N; [|reflexivity].
        assert (length (engs g) < length (engs g)) by (apply nth_error_Some; congruence); lia.
      - rewrite nth_error_app2 by lia; destruct (k0 - length (engs g)) as [|d] eqn:D; [lia|]; cbn [nth_error]; destruct d; cbn [nth_error].
        all: destruct (nth_error (engs g) k0) eqn:N; [|reflexivity]; assert (k0 < length (engs g)) by (apply nth_error_Some; congruence); lia. }
    assert (forall k1 e1, nth_error (engs g) k1 = Some e1 -> queue_of g k1 = e_queue e1) as Q5 by (intros k1 e1 E; unfold queue_of; rewrite E; reflexivity).
    mcases H;
      try (split; [intros Q|intros Q S]; rewrite ?Q1, ?Q2 by (proj; rewrite ?store_engs; reflexivity); proj; rewrite ?store_trace; try assumption; ev; solve [lia|assumption]);
      try (split; [intros Q|intros Q S]; rewrite ?Q3, ?Q4; cbn [load trace]; ev; solve [lia|assumption]).
    all: try (match goal with M : e_multi ?e = false, E : nth_error (engs ?gg) ?k = Some ?e |- _ =>
      split; [intros Q|intros Q S]; rewrite ?Q1, ?Q2 by reflexivity; proj; [ev; lia|]; ev; [|assumption]; rewrite Q;
      rewrite (Q5 _ _ E), (S _ E M), app_nil_r; rewrite ?app_nil_r; reflexivity end).
    all: split; [intros Q|intros Q S]; unfold queued; proj.
    all: try match goal with E : nth_error (engs ?gg) ?k = Some ?e |- context [tot ?f (upd (engs ?gg) ?k ?e')] =>
      pose proof (tot_upd f (engs gg) k e' e E) as U; cbn beta in U; cbn [set_queue set_flags e_queue] in U;
      unfold queued in Q; try rewrite times_app in U; try (match goal with EQ : e_queue e = _ |- _ => rewrite EQ in U; rewrite times_cons in U end); ev; lia end.
    all: rewrite ?queue_emit, queue_upd; match goal with E : nth_error (engs ?gg) ?k = Some ?e |- _ => rewrite E; pose proof (Q5 _ _ E) as Q6 end.
    all: cbn [set_queue set_flags e_queue]; ev; rewrite ?Nat.eqb_refl; try rewrite Q.
    all: try match goal with N : ?a <> ?b |- context [Nat.eqb ?b ?a] => destruct (Nat.eqb_spec b a); [congruence|]; assumption || reflexivity end.
    all: try (rewrite Q6, app_assoc; reflexivity).
    all: try (destruct (Nat.eqb_spec k0 pk) as [->|N]; [rewrite Q6|]; reflexivity).
    rewrite Q6; match goal with EQ : e_queue e = _ |- _ => rewrite EQ end; rewrite <- app_assoc; reflexivity.
  Qed.

  (** Which instances were loaded. *)
  Lemma loads_local : forall ex n x g x' g' new, lm nested ex n x g x' g' new ->
    loads (trace g) = seq 0 (length (engs g)) /\ serial g = length (engs g) ->
    loads (trace g') = seq 0 (length (engs g')) /\ serial g' = length (engs g').
  Proof.
    intros ex n x g x' g' new H [Q S]; mcases H; proj; rewrite ?store_engs, ?store_trace, ?store_serial, ?upd_length; ev; auto;
      rewrite app_length, seq_app, S, Q; cbn; split; [reflexivity|lia|reflexivity|lia].
  Qed.

  Definition InvT (s : state) : Prop :=
    (forall r, times r (calls (trace (sh s))) = times r (all_puts (trace (sh s))) + times r (crashes (trace (sh s))) + tot (a_pre r) (actors s)) /\
    (forall r, times r (all_puts (trace (sh s))) = times r (rets (trace (sh s))) + tot (a_post r) (actors s)) /\
    (forall k r, times r (starts k (trace (sh s))) = times r (dones k (trace (sh s))) + tot (a_run k r) (actors s)) /\
    (forall r, times r (all_puts (trace (sh s))) = times r (all_starts (trace (sh s))) + queued r (sh s)) /\
    (forall k, puts k (trace (sh s)) = starts k (trace (sh s)) ++ queue_of (sh s) k) /\
    loads (trace (sh s)) = seq 0 (length (engs (sh s))) /\ serial (sh s) = length (engs (sh s)).

  Lemma InvT_trans : forall s s', InvE s -> InvT s -> trans nested s s' -> InvT s'.
  Proof.
    intros s s' (IA & IB & IC) (A & B & C & D & F & G) (l1 & x & l2 & x' & g' & new & E & H & ->); unfold InvT; cbn [actors sh].
    assert (actor_ok (sh s) (length l1) x) as Ax by (apply IA; rewrite E, nth_error_app2, Nat.sub_diag by lia; reflexivity).
    pose proof (counts_local _ _ _ _ _ _ _ H) as K; pose proof (queues_local _ _ _ _ _ _ _ _ H Ax) as K2.
    repeat match goal with |- _ /\ _ => split end.
    - intros r; specialize (A r); rewrite E in A; rewrite !tot_app, !tot_cons in *; rewrite tot_app.
      destruct (K r 0 (tot (a_pre r) l1 + tot (a_pre r) l2)) as (K1 & _ & _); rewrite K1; lia.
    - intros r; specialize (B r); rewrite E in B; rewrite !tot_app, !tot_cons in *; rewrite tot_app.
      destruct (K r 0 (tot (a_post r) l1 + tot (a_post r) l2)) as (_ & K1 & _); rewrite K1; lia.
    - intros k r; specialize (C k r); rewrite E in C; rewrite !tot_app, !tot_cons in *; rewrite tot_app.
      destruct (K r k (tot (a_run k r) l1 + tot (a_run k r) l2)) as (_ & _ & K1); rewrite K1; lia.
    - intros r; apply (K2 r 0), D.
    - intros k; apply (K2 0 k); [apply F|]; intros e Ek M; apply (IB k e Ek), M.
    - eapply loads_local; eauto.
    - eapply loads_local; eauto.
  Qed.

  Lemma InvT_init : forall progs p q, InvT (init progs p q).
  Proof.
    intros progs p q; unfold InvT, init; cbn [actors sh].
    repeat match goal with |- _ /\ _ => split end; try reflexivity; intros; rewrite ?tot_zero; try reflexivity;
      try (intros x Hx; apply in_map_iff in Hx; destruct Hx as (cs & <- & _); reflexivity).
    unfold queue_of; cbn; destruct k; reflexivity.
  Qed.
End Trace.
