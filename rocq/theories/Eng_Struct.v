(** Invariants of the engine: instances, workers and call stacks. *)
From Verif Require Import Base Eng_Model Eng_Spec Eng_Moves Eng_Inv.

(** Shared state only grows. *)
Definition eng_le (e e' : eng) : Prop :=
  e_multi e' = e_multi e /\ e_max e' = e_max e /\ e_first e' = e_first e /\ e_count e' = e_count e /\
  length (e_flags e') = length (e_flags e) /\ (forall j, nth j (e_flags e) false = true -> nth j (e_flags e') false = true).
Definition gle (g g' : shared) : Prop :=
  (forall k e, nth_error (engs g) k = Some e -> exists e', nth_error (engs g') k = Some e' /\ eng_le e e') /\
  length (engs g) <= length (engs g') /\
  (started g = true -> started g' = true) /\ (leaked g = true -> leaked g' = true) /\ (exists es, trace g' = trace g ++ es).

Lemma eng_le_refl : forall e, eng_le e e.
Proof. intros e; repeat split; auto. Qed.
Lemma gle_refl : forall g, gle g g.
Proof.
  intros g; split; [intros k e E; exists e; split; [exact E|apply eng_le_refl]|].
  split; [lia|]; split; [auto|]; split; [auto|]; exists []; symmetry; apply app_nil_r.
Qed.

Lemma nth_error_upd : forall {A} (l : list A) i x k, nth_error (upd l i x) k =
  if Nat.eqb k i then match nth_error l i with Some _ => Some x | None => None end else nth_error l k.
Proof.
  induction l as [|y l IH]; intros i x k; destruct i as [|i]; destruct k as [|k]; cbn; try reflexivity.
  - destruct (Nat.eqb k i); reflexivity.
  - apply IH.
Qed.
Lemma upd_length : forall {A} (l : list A) i x, length (upd l i x) = length l.
Proof. induction l as [|y l IH]; intros [|i] x; cbn; auto. Qed.
Lemma nth_upd : forall (l : list bool) i j, nth j (upd l i true) false = (Nat.eqb j i && Nat.ltb i (length l)) || nth j l false.
Proof.
  induction l as [|y l IH]; intros i j; destruct i as [|i]; destruct j as [|j]; cbn; try reflexivity.
  - rewrite andb_comm; reflexivity.
  - rewrite IH; reflexivity.
Qed.

Lemma set_eng_gle : forall g k e e', nth_error (engs g) k = Some e -> eng_le e e' -> gle g (set_eng g k e').
Proof.
  intros g k e e' E L; split.
  - intros k2 e2 E2; cbn [set_eng engs]; rewrite nth_error_upd; destruct (Nat.eqb_spec k2 k) as [->|N].
    + rewrite E in E2 |- *; injection E2 as <-; exists e'; auto.
    + exists e2; split; [exact E2|apply eng_le_refl].
  - cbn [set_eng engs started leaked trace]; rewrite upd_length; split; [lia|]; split; [auto|]; split; [auto|].
    exists []; symmetry; apply app_nil_r.
Qed.
Lemma emit_gle : forall g g' es, gle g g' -> gle g (emit g' es).
Proof.
  intros g g' es (A & B & C & D & (ts & T)); split; [exact A|]; split; [exact B|]; split; [exact C|]; split; [exact D|].
  exists (ts ++ es); cbn [emit trace]; rewrite T, app_assoc; reflexivity.
Qed.
Lemma same_gle : forall g g', engs g' = engs g -> (started g = true -> started g' = true) -> (leaked g = true -> leaked g' = true) ->
  trace g' = trace g -> gle g g'.
Proof.
  intros g g' A B C D; split; [intros k e E; exists e; rewrite A; split; [exact E|apply eng_le_refl]|].
  rewrite A; split; [lia|]; split; [exact B|]; split; [exact C|]; exists []; rewrite app_nil_r; exact D.
Qed.
Lemma load_gle : forall g n, gle g (load g n).
Proof.
  intros g n; split; [intros k e E; exists e; split; [|apply eng_le_refl]|].
  - cbn [load engs]; rewrite nth_error_app1; [exact E|]; apply nth_error_Some; congruence.
  - cbn [load engs started leaked trace]; rewrite app_length; split; [lia|]; split; [auto|]; split; [auto|]; eexists; reflexivity.
Qed.
Lemma queue_le : forall e q, eng_le e (set_queue e q).
Proof. intros e q; repeat split; auto. Qed.
Lemma flags_le : forall e i, eng_le e (set_flags e (upd (e_flags e) i true)).
Proof.
  intros e i; repeat split; cbn [set_flags e_flags]; [apply upd_length|]; intros j H; rewrite nth_upd, H; apply orb_true_r.
Qed.

(** *** Stacks and program counters *)
Definition p_ok (g : shared) (p : spc) : Prop :=
  match p with
  | PWait k => exists e, nth_error (engs g) k = Some e /\ e_multi e = true
  | PFlag k i => exists e, nth_error (engs g) k = Some e /\ e_multi e = true /\ forall j, j < i -> j < e_count e -> nth j (e_flags e) false = true
  | PJoin k i => exists e, nth_error (engs g) k = Some e /\ e_multi e = true /\ forall j, j < e_count e -> nth j (e_flags e) false = true
  | _ => True
  end.
Definition t_ok (g : shared) (pc : tpc) : Prop := match pc with S7 p | H3 p => p_ok g p | _ => True end.

Fixpoint stack_ok (g : shared) (b : base) (st : list frame) : Prop :=
  match st with
  | [] => True
  | FWrite pc r :: l => (match pc with W6 k | B3 k => k < length (engs g) | _ => True end) /\ stack_ok g b l
  | FExec k r rest :: l => exists e, nth_error (engs g) k = Some e /\
      (if e_multi e then l = [] /\ exists j, b = BWorker k j KBusy
       else exists pc l', l = FWrite pc r :: l' /\ (pc = W7 \/ pc = B4)) /\ stack_ok g b l
  end.

Definition base_ok (g : shared) (a : nat) (b : base) (st : list frame) : Prop :=
  match b with
  | BThread cs pc => (pc <> TNext -> st = []) /\ t_ok g pc
  | BWorker k j pc => exists e, nth_error (engs g) k = Some e /\ e_multi e = true /\ a = e_first e + j /\ j < e_count e /\
                        (pc <> KBusy -> st = []) /\ (pc = KExit -> nth j (e_flags e) false = true)
  end.
Definition actor_ok (g : shared) (a : nat) (x : act) : Prop :=
  stack_ok g (abase x) (astack x) /\ base_ok g a (abase x) (astack x).

Definition shape (x : act) : option (nat * nat) := match abase x with BWorker k j _ => Some (k, j) | _ => None end.
Definition eng_ok (l : list act) (k : nat) (e : eng) : Prop :=
  (e_multi e = true <-> 0 < e_count e) /\ length (e_flags e) = e_count e /\ (e_multi e = false -> e_queue e = []) /\
  (forall j, j < e_count e -> exists x, nth_error l (e_first e + j) = Some x /\ shape x = Some (k, j)).

Definition InvE (s : state) : Prop :=
  (forall a x, nth_error (actors s) a = Some x -> actor_ok (sh s) a x) /\
  (forall k e, nth_error (engs (sh s)) k = Some e -> eng_ok (actors s) k e) /\
  cur (sh s) = match length (engs (sh s)) with 0 => None | S m => Some m end.

Lemma p_ok_gle : forall g g' p, gle g g' -> p_ok g p -> p_ok g' p.
Proof.
  intros g g' p (G & _) H; destruct p as [|k|k i|k i| |]; try exact I; cbn [p_ok] in *.
  - destruct H as (e & E & M); destruct (G k e E) as (e' & E' & L & _); exists e'; rewrite L; auto.
  - destruct H as (e & E & M & F); destruct (G k e E) as (e' & E' & L & _ & _ & C & _ & L2); exists e'; rewrite L, C; split; [exact E'|]; split; [exact M|].
    intros j J1 J2; apply L2, F; assumption.
  - destruct H as (e & E & M & F); destruct (G k e E) as (e' & E' & L & _ & _ & C & _ & L2); exists e'; rewrite L, C; split; [exact E'|]; split; [exact M|].
    intros j J1; apply L2, F; assumption.
Qed.
Lemma stack_ok_gle : forall g g' b st, gle g g' -> stack_ok g b st -> stack_ok g' b st.
Proof.
  intros g g' b st G; induction st as [|[pc r|k r rest] st IH]; intros H; [exact I| |]; cbn [stack_ok] in *.
  - destruct H as [A B]; split; [|auto]; destruct G as (_ & L & _); destruct pc; auto; lia.
  - destruct H as (e & E & A & B); destruct G as (G & G2); destruct (G k e E) as (e' & E' & L & _).
    exists e'; rewrite L; split; [exact E'|]; split; [exact A|apply IH; exact B].
Qed.
Lemma actor_ok_gle : forall g g' a x, gle g g' -> actor_ok g a x -> actor_ok g' a x.
Proof.
  intros g g' a x G [A B]; split; [apply (stack_ok_gle g); assumption|].
  unfold base_ok in *; destruct (abase x) as [cs pc|k j pc].
  - destruct B as [B C]; split; [exact B|]; destruct pc; try exact I; apply (p_ok_gle g); assumption.
  - destruct B as (e & E & M & F & J & S & X); destruct G as (G & _); destruct (G k e E) as (e' & E' & L1 & _ & L2 & L3 & _ & L4).
    exists e'; rewrite L1, L2, L3; repeat (split; [assumption|]); intros P; apply L4, X, P.
Qed.

Section Struct.
  Variable nested : nat -> list nat.

  Lemma lm_gle : forall ex n x g x' g' new, lm nested ex n x g x' g' new -> gle g g'.
  Proof.
    intros ex n x g x' g' new H; mcases H; try apply gle_refl; try apply load_gle;
      repeat apply emit_gle;
      try (apply same_gle; proj; rewrite ?store_engs, ?store_started, ?store_leaked, ?store_trace; auto; fail);
      try apply gle_refl;
      try (eapply set_eng_gle; [eassumption|]; first [apply queue_le | apply flags_le]).
  Qed.

  Lemma lm_shape : forall ex n x g x' g' new, lm nested ex n x g x' g' new -> shape x' = shape x.
  Proof. intros ex n x g x' g' new H; mcases H; reflexivity. Qed.

  Lemma stack_pop : forall g b f l, stack_ok g b (f :: l) -> stack_ok g b l.
  Proof. intros g b [pc r|k r rest] l H; cbn in H; [apply H|]; destruct H as (e & _ & _ & H); exact H. Qed.
  Lemma stack_push : forall g b pc r l, stack_ok g b l -> (match pc with W6 k | B3 k => k < length (engs g) | _ => True end) ->
    stack_ok g b (FWrite pc r :: l).
  Proof. intros; cbn; auto. Qed.

  Lemma base_any : forall g a b f l st, base_ok g a b (f :: l) -> base_ok g a b st.
  Proof.
    intros g a b f l st H; destruct b as [cs pc|k j pc]; cbn [base_ok] in *.
    - destruct H as [H T]; split; [|exact T]; intros N; specialize (H N); discriminate.
    - destruct H as (e & E & M & F & J & S & X); exists e; repeat (split; [assumption|]); split; [|exact X].
      intros N; specialize (S N); discriminate.
  Qed.

  (** The actor that moves, and the new workers. *)
  Lemma lm_actor_ok : forall ex n x g x' g' new a, lm nested ex n x g x' g' new ->
    cur g = match length (engs g) with 0 => None | S m => Some m end ->
    (forall k e, nth_error (engs g) k = Some e -> length (e_flags e) = e_count e) ->
    actor_ok g a x -> actor_ok g' a x'.
  Proof.
    intros ex n x g x' g' new a H C FL A; pose proof (lm_gle _ _ _ _ _ _ _ H) as G.
    pose proof (actor_ok_gle _ _ _ _ G A) as [A1 B1]; destruct A as [A B]; mcases H; cbn [abase astack] in *; (split; cbn [abase astack]);
      try (eapply base_any; exact B1);
      try exact A1;
      try (apply stack_pop in A1; exact A1);
      try (apply stack_pop in A1; apply stack_push; [exact A1|exact I]);
      try (cbn [base_ok t_ok] in *; split; [solve [reflexivity|intros; congruence|intros; reflexivity]|exact I]);
      try (cbn [base_ok t_ok] in *; split; [solve [reflexivity|intros; congruence|intros; reflexivity|apply B1; discriminate]|]);
      try (split; [exact I|apply stack_pop in A1; exact A1]);
      try exact I.
    1: subst pc; apply stack_pop in A1; apply stack_push; [exact A1|destruct (wmode g); exact I].
    all: try match goal with |- stack_ok _ _ (FWrite _ _ :: _) => apply stack_pop in A1; apply stack_push; [exact A1|];
           destruct (length (engs g)) eqn:L; [congruence|]; assert (k = n0) as -> by congruence; lia end.
    all: try match goal with Q : nth_error (engs ?gg) ?k = Some ?e |- stack_ok _ _ (FExec ?k _ _ :: FWrite _ _ :: _) =>
           apply stack_pop in A1; exists e; cbn [emit engs]; rewrite Q; split; [reflexivity|]; split; [|split; [exact I|exact A1]];
           match goal with M : e_multi e = false |- _ => rewrite M end; eexists _, _; split; [reflexivity|auto] end.
    all: try match goal with PE : nth_error (engs ?gg) ?pk = Some ?pe |- p_ok (set_eng _ _ _) _ =>
           destruct B as [_ B]; cbn [base_ok t_ok p_ok] in B |- *; destruct B as (e & Q & M & F); rewrite PE in Q; injection Q as <-;
           exists (set_flags pe (upd (e_flags pe) pi true)); cbn [set_eng engs]; rewrite nth_error_upd, Nat.eqb_refl, PE;
           split; [reflexivity|]; split; [exact M|]; cbn [set_flags e_flags e_count]; intros j J1 J2; rewrite nth_upd, (FL _ _ PE);
           destruct (Nat.eqb_spec j pi) as [->|N]; [apply Nat.ltb_lt in J2; rewrite J2; reflexivity|]; rewrite F by lia; apply orb_true_r end.
    all: try match goal with |- p_ok _ _ => cbn [base_ok t_ok] in B1; destruct B1 as [_ B1]; cbn [p_ok] in *; eauto;
           try (destruct B1 as (e & Q & M); exists e; split; [exact Q|]; split; [exact M|]; intros; lia);
           try (destruct B1 as (e & Q & M & F); exists e; split; [exact Q|]; split; [exact M|]; intros; apply F; [|assumption]; rewrite PE in Q; injection Q as <-; lia) end.
    all: try match goal with |- stack_ok _ (BThread _ TNext) _ => cbn [base_ok] in B; destruct B as [B _]; rewrite (B ltac:(discriminate)); exact I end.
    - destruct A1 as (e & Q & M & S1); exists e; auto.
    - destruct B1 as (e1 & Q & M & F & J & S1 & X); exists e1; rewrite M; split; [exact Q|]; split; [split; [reflexivity|exists j; reflexivity]|exact I].
    - destruct B1 as (e1 & Q & M & F & J & S1 & X); exists e1; repeat (split; [assumption|]); split; [intros N; contradiction N; reflexivity|discriminate].
    - destruct B1 as (e1 & Q & M & F & J & S1 & X); exists e1; repeat (split; [assumption|]); split; [reflexivity|discriminate].
    - destruct B1 as (e1 & Q & M & F & J & S1 & X); exists e1; repeat (split; [assumption|]); split; [reflexivity|]. intros _; congruence.
    - destruct B1 as (e1 & Q & M & F & J & S1 & X); exists e1; repeat (split; [assumption|]); split; [reflexivity|discriminate].
    - destruct B1 as (e1 & Q & M & F & J & S1 & X); exists e1; repeat (split; [assumption|]); split; [reflexivity|discriminate].
  Qed.

  Lemma lm_new_ok : forall ex n x g x' g' new, lm nested ex n x g x' g' new -> forall i y, nth_error new i = Some y -> actor_ok g' (n + i) y.
  Proof.
    intros ex n x g x' g' new H i y Hy.
    assert (new = [] \/ (g' = load g n /\ new = new_workers g)) as [->|[-> ->]] by (mcases H; auto).
    { destruct i; discriminate. }
    unfold new_workers in Hy; rewrite nth_error_map in Hy.
    destruct (nth_error (seq 0 (psize g)) i) as [j|] eqn:S; [|discriminate]; injection Hy as <-.
    assert (i < psize g) as Hi by (rewrite <- (seq_length (psize g) 0); apply nth_error_Some; congruence).
    assert (j = i) as ->.
    { apply (nth_error_nth _ _ 0) in S; rewrite seq_nth in S by exact Hi; cbn in S; congruence. }
    split; [exact I|]; cbn [abase astack base_ok].
    exists (new_eng g n); cbn [load engs]; rewrite nth_error_app2, Nat.sub_diag by lia; cbn [nth_error].
    split; [reflexivity|]; unfold new_eng; cbn [e_multi e_first e_count].
    destruct (Nat.eqb_spec (psize g) 0) as [Z|Z]; [lia|].
    repeat (split; [reflexivity || lia || auto|]); discriminate.
  Qed.

  Lemma lm_eng : forall ex n x g x' g' new, lm nested ex n x g x' g' new -> forall a, actor_ok g a x ->
    forall k e', nth_error (engs g') k = Some e' ->
    (exists e, nth_error (engs g) k = Some e /\ eng_le e e' /\ (e_multi e = false -> e_queue e' = e_queue e)) \/
    (k = length (engs g) /\ e' = new_eng g n /\ new = new_workers g).
  Proof.
    intros ex n x g x' g' new H a A k e' E.
    assert (forall g2, engs g2 = engs g -> nth_error (engs g2) k = Some e' -> exists e, nth_error (engs g) k = Some e /\ eng_le e e' /\ (e_multi e = false -> e_queue e' = e_queue e)) as Same.
    { intros g2 E2 E3; rewrite E2 in E3; exists e'; split; [exact E3|]; split; [apply eng_le_refl|reflexivity]. }
    assert (forall g2 k2 e2 e3, engs g2 = upd (engs g) k2 e3 -> nth_error (engs g) k2 = Some e2 -> eng_le e2 e3 -> (e_multi e2 = false -> e_queue e3 = e_queue e2) ->
              nth_error (engs g2) k = Some e' -> exists e, nth_error (engs g) k = Some e /\ eng_le e e' /\ (e_multi e = false -> e_queue e' = e_queue e)) as Upd.
    { intros g2 k2 e2 e3 E1 E2 L Q E3; rewrite E1, nth_error_upd in E3; destruct (Nat.eqb_spec k k2) as [->|N].
      - rewrite E2 in E3; injection E3 as <-; exists e2; auto.
      - exists e'; split; [exact E3|]; split; [apply eng_le_refl|reflexivity]. }
    mcases H;
      try (left; eapply Same; [|exact E]; proj; rewrite ?store_engs; reflexivity);
      try (left; eapply Upd; [| | | |exact E]; [reflexivity|eassumption|first [apply queue_le|apply flags_le]|intros; try reflexivity; congruence]).
    - cbn [load engs] in E; destruct (lt_eq_lt_dec k (length (engs g))) as [[L|L]|L].
      + rewrite nth_error_app1 in E by exact L; left; apply (Same g); [reflexivity|exact E].
      + subst k; rewrite nth_error_app2, Nat.sub_diag in E by lia; injection E as <-; right; auto.
      + exfalso; assert (k < length (engs g ++ [new_eng g n])) by (apply nth_error_Some; congruence); rewrite app_length in *; cbn in *; lia.
    - cbn [load engs] in E; destruct (lt_eq_lt_dec k (length (engs g))) as [[L|L]|L].
      + rewrite nth_error_app1 in E by exact L; left; apply (Same g); [reflexivity|exact E].
      + subst k; rewrite nth_error_app2, Nat.sub_diag in E by lia; injection E as <-; right; auto.
      + exfalso; assert (k < length (engs g ++ [new_eng g n])) by (apply nth_error_Some; congruence); rewrite app_length in *; cbn in *; lia.
    - left; eapply Upd; [| | | |exact E]; [reflexivity|eassumption|apply queue_le|].
      destruct A as [_ (e1 & Q1 & M & _)]; intros M2; congruence.
  Qed.

  Lemma lm_cur : forall ex n x g x' g' new, lm nested ex n x g x' g' new ->
    cur g = match length (engs g) with 0 => None | S m => Some m end ->
    cur g' = match length (engs g') with 0 => None | S m => Some m end.
  Proof.
    intros ex n x g x' g' new H C; mcases H; proj; rewrite ?upd_length, ?store_cur, ?store_engs; try exact C;
      rewrite app_length, Nat.add_comm; reflexivity.
  Qed.

  Lemma nth_cases : forall {A} (l1 l2 new : list A) x x' a y, nth_error (l1 ++ x' :: l2 ++ new) a = Some y ->
    (a = length l1 /\ y = x') \/ (a <> length l1 /\ nth_error (l1 ++ x :: l2) a = Some y) \/
    (exists i, a = length (l1 ++ x :: l2) + i /\ nth_error new i = Some y).
  Proof.
    intros A l1 l2 new x x' a y H.
    replace (l1 ++ x' :: l2 ++ new) with ((l1 ++ x' :: l2) ++ new) in H by (rewrite <- app_assoc; reflexivity).
    destruct (lt_dec a (length (l1 ++ x' :: l2))) as [L|L].
    - rewrite nth_error_app1 in H by exact L; destruct (lt_eq_lt_dec a (length l1)) as [[L1|L1]|L1].
      + right; left; split; [lia|]; rewrite nth_error_app1 in H |- * by exact L1; exact H.
      + left; split; [exact L1|]; subst a; rewrite nth_error_app2, Nat.sub_diag in H by lia; injection H as ->; reflexivity.
      + right; left; split; [lia|]; rewrite nth_error_app2 in H |- * by lia; destruct (a - length l1) eqn:D; [lia|exact H].
    - right; right; exists (a - length (l1 ++ x' :: l2)); rewrite nth_error_app2 in H by lia; split; [|exact H].
      rewrite !app_length in *; cbn [length] in *; lia.
  Qed.
  Lemma nth_old : forall {A} (l1 l2 new : list A) x x' a y, nth_error (l1 ++ x :: l2) a = Some y ->
    (a = length l1 /\ y = x /\ nth_error (l1 ++ x' :: l2 ++ new) a = Some x') \/ (a <> length l1 /\ nth_error (l1 ++ x' :: l2 ++ new) a = Some y).
  Proof.
    intros A l1 l2 new x x' a y H; destruct (lt_eq_lt_dec a (length l1)) as [[L1|L1]|L1].
    - right; split; [lia|]; rewrite nth_error_app1 in H |- * by exact L1; exact H.
    - left; subst a; rewrite nth_error_app2, Nat.sub_diag in H |- * by lia; injection H as ->; auto.
    - right; split; [lia|]; rewrite nth_error_app2 in H |- * by lia; destruct (a - length l1) as [|d] eqn:D; [lia|]; cbn [nth_error] in *.
      rewrite nth_error_app1; [exact H|]; apply nth_error_Some; congruence.
  Qed.

  Lemma InvE_trans : forall s s', InvE s -> trans nested s s' -> InvE s'.
  Proof.
    intros s s' (A & B & C) (l1 & x & l2 & x' & g' & new & E & H & ->); unfold InvE; cbn [actors sh].
    assert (actor_ok (sh s) (length l1) x) as Ax by (apply A; rewrite E, nth_error_app2, Nat.sub_diag by lia; reflexivity).
    split; [|split].
    - intros a y Hy; destruct (nth_cases l1 l2 new x x' a y Hy) as [[-> ->]|[[N Hy2]|(i & -> & Hy2)]].
      + eapply lm_actor_ok; [exact H|exact C| |exact Ax]; intros k e Ek; apply (B k e Ek).
      + eapply actor_ok_gle; [eapply lm_gle; exact H|]; apply A; rewrite E; exact Hy2.
      + rewrite <- E; eapply lm_new_ok; [exact H|exact Hy2].
    - intros k e' Ek; destruct (lm_eng _ _ _ _ _ _ _ H _ Ax k e' Ek) as [(e & E1 & (L1 & L2 & L3 & L4 & L5 & L6) & Q)|(-> & -> & ->)].
      + destruct (B k e E1) as (B1 & B2 & B3 & B4); split; [rewrite L1, L4; exact B1|]; split; [rewrite L5, L4; exact B2|].
        split; [rewrite L1; intros M; rewrite Q; auto|]; rewrite L3, L4; intros j J; destruct (B4 j J) as (y & Hy & Sy); rewrite E in Hy.
        destruct (nth_old l1 l2 new x x' _ y Hy) as [(_ & -> & Hz)|(_ & Hz)]; eexists; (split; [exact Hz|]); [|exact Sy].
        rewrite (lm_shape _ _ _ _ _ _ _ H); exact Sy.
      + unfold eng_ok, new_eng; cbn [e_multi e_count e_flags e_queue e_first].
        split; [destruct (Nat.eqb_spec (psize (sh s)) 0); cbn; split; intros; try discriminate; lia|]; split; [apply repeat_length|]; split; [reflexivity|].
        intros j J; rewrite E.
        replace (l1 ++ x' :: l2 ++ new_workers (sh s)) with ((l1 ++ x' :: l2) ++ new_workers (sh s)) by (rewrite <- app_assoc; reflexivity).
        exists (mkAct (BWorker (length (engs (sh s))) j KGet) []); split; [|reflexivity].
        rewrite nth_error_app2 by (rewrite !app_length; cbn; lia).
        replace (length (l1 ++ x :: l2) + j - length (l1 ++ x' :: l2)) with j by (rewrite !app_length; cbn; lia).
        unfold new_workers; rewrite nth_error_map.
        assert (nth_error (seq 0 (psize (sh s))) j = Some j) as ->; [|reflexivity].
        rewrite (nth_error_nth' _ 0) by (rewrite seq_length; exact J); rewrite seq_nth by exact J; reflexivity.
    - eapply lm_cur; [exact H|exact C].
  Qed.

  Lemma InvE_init : forall progs p q, InvE (init progs p q).
  Proof.
    intros progs p q; split; [|split].
    - intros a x Hx; apply nth_error_In, in_map_iff in Hx; destruct Hx as (cs & <- & _).
      split; [exact I|]; split; [intros _; reflexivity|exact I].
    - intros [|k] e E; discriminate.
    - reflexivity.
  Qed.

  (** Whoever is over stays so. *)
  Lemma lm_exit : forall ex n x g x' g' new k j, lm nested ex n x g x' g' new -> abase x = BWorker k j KExit -> abase x' = BWorker k j KExit.
  Proof. intros ex n x g x' g' new k j H E; mcases H; cbn in *; try discriminate; exact E. Qed.
  Lemma exited_trans : forall s s' a, trans nested s s' -> is_exited (actors s) a = true -> is_exited (actors s') a = true.
  Proof.
    intros s s' a (l1 & x & l2 & x' & g' & new & E & H & ->) X; cbn [actors]; unfold is_exited in *.
    destruct (nth_error (actors s) a) as [y|] eqn:Y; [|discriminate]; rewrite E in Y.
    destruct (nth_old l1 l2 new x x' a y Y) as [(_ & -> & ->)|(_ & ->)]; [|exact X].
    destruct x as [[|k j []] st]; try discriminate.
    pose proof (lm_exit _ _ _ _ _ _ _ k j H eq_refl) as E2; destruct x' as [b st']; cbn in E2; subst b; reflexivity.
  Qed.
End Struct.
