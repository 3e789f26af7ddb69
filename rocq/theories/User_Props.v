(** Property C79: engines given by the user. *)
From Coq Require Import Lia.
From Verif Require Import Base User_Model.
Local Open Scope string_scope.
Local Open Scope list_scope.

(** ** Specification *)

(** The value of the setting engine after these operations. *)
Definition engine_set (os : list op) : nat := fold_left (fun v o => match o with SetEngine u => u | _ => v end) os 0.
(** The engine made last, and how many were made. *)
Definition last_made (h : list ev) : option nat := fold_left (fun c e => match e with Made _ k => Some k | _ => c end) h None.
Fixpoint count_made (h : list ev) : nat := match h with [] => 0 | Made _ _ :: r => S (count_made r) | _ :: r => count_made r end.
Definition stop_called (k : nat) (h : list ev) : Prop := In (Stop k) h \/ In (StopFailed k) h.
Definition is_write (o : op) : Prop := match o with Write _ => True | _ => False end.
Definition is_exit (o : op) : Prop := match o with Exit => True | _ => False end.
Definition uses_locks (o : op) : Prop := match o with Write _ | SetSize _ _ => True | _ => False end.
(** What is to happen if all goes well: [c] is the engine in use. *)
Fixpoint story (v p q : nat) (c : option nat) (os : list op) : list ev :=
  match os with
  | [] => []
  | Write r :: os =>
      match c with
      | None => Made v 0 :: Wrote 0 r :: story v p q (Some 0) os
      | Some k => Wrote k r :: story v p q c os
      end
  | SetEngine u :: os => story u p q c os
  | SetSize which n :: os =>
      let p' := if which then n else p in
      let q' := if which then q else n in
      if (Nat.eqb p' 0 && negb (Nat.eqb q' 0)) || (Nat.eqb p' p && Nat.eqb q' q) then story v p q c os
      else match c with
           | None => story v p' q' None os
           | Some k => Stop k :: Made v (S k) :: story v p' q' (Some (S k)) os
           end
  | Exit :: os => story v p q c os
  end.
(** What the engines may do without blocking the program: read settings, but not the two sizes, and write no records. *)
Definition harmless (d : does) : Prop := match d with Reads n => n <> "pool_size" /\ n <> "max_queue_size" | Logs => False end.

Lemma last_made_snoc : forall h e, last_made (h ++ [e]) = match e with Made _ k => Some k | _ => last_made h end.
Proof. intros h e; unfold last_made; rewrite fold_left_app; reflexivity. Qed.
Lemma count_made_snoc : forall h e, count_made (h ++ [e]) = match e with Made _ _ => S (count_made h) | _ => count_made h end.
Proof. induction h as [|x h IH]; intros e; cbn; [destruct e; reflexivity|]. rewrite IH; destruct x, e; reflexivity. Qed.
Lemma count_made_zero : forall h, count_made h = 0 <-> forall v k, ~ In (Made v k) h.
Proof.
  induction h as [|e h IH]; cbn; [split; [intros _ v k []|reflexivity]|].
  destruct e; cbn; try (rewrite IH; split; [intros H a b [E|E]; [discriminate E|exact (H a b E)]|intros H a b E; exact (H a b (or_intror E))]).
  split; [discriminate|intros H; destruct (H v k); left; reflexivity].
Qed.
Lemma engine_set_snoc : forall os o, engine_set (os ++ [o]) = match o with SetEngine u => u | _ => engine_set os end.
Proof. intros os o; unfold engine_set; rewrite fold_left_app; reflexivity. Qed.

(** Every event is right after what came before it. *)
Definition every (P : list ev -> ev -> Prop) (h : list ev) : Prop := forall t1 e t2, h = t1 ++ e :: t2 -> P t1 e.
Lemma every_nil : forall P, every P [].
Proof. intros P [|x t1] e t2 E; discriminate E. Qed.
Lemma every_snoc : forall P h e, every P h -> P h e -> every P (h ++ [e]).
Proof.
  intros P h e A B t1 x t2 E. destruct t2 as [|y t2] using rev_ind.
  - apply app_inj_tail in E; destruct E as (-> & ->); exact B.
  - rewrite app_comm_cons, app_assoc in E. apply app_inj_tail in E; destruct E as (E & _); exact (A t1 x t2 E).
Qed.

Section Props.
  Variable mk : list ev -> nat -> list does * bool.
  Variable wr : list ev -> nat -> nat -> option exn.
  Variable st : list ev -> nat -> list does * bool.
  Notation stp := (step mk wr st).
  Notation rn := (run mk wr st).
  Definition after (os : list op) : world := fst (rn fresh os).
  Definition outcome_of (os : list op) (o : op) : outcome := snd (stp (after os) o).
  Lemma run_app : forall os os' w, fst (rn w (os ++ os')) = fst (rn (fst (rn w os)) os').
  Proof.
    induction os as [|o os IH]; intros os' w; [reflexivity|]. cbn [app run]. destruct (stp w o) as (w1, x).
    specialize (IH os' w1). destruct (rn w1 (os ++ os')) as (a, b), (rn w1 os) as (c, d); exact IH.
  Qed.
  Lemma after_snoc : forall os o, after (os ++ [o]) = fst (stp (after os) o).
  Proof. intros os o; unfold after; rewrite run_app; cbn; destruct (stp (fst (rn fresh os)) o); reflexivity. Qed.
  Lemma after_ind : forall P : list op -> world -> Prop, P [] fresh -> (forall os o, P os (after os) -> P (os ++ [o]) (fst (stp (after os) o))) -> forall os, P os (after os).
  Proof. intros P A B os; induction os as [|o os IH] using rev_ind; [exact A|]. rewrite after_snoc; apply B, IH. Qed.
  (** The outcomes of a run are those of its operations. *)
  Lemma outcomes : forall os w, snd (rn w os) = match os with [] => [] | o :: r => snd (stp w o) :: snd (rn (fst (stp w o)) r) end.
  Proof. intros [|o os] w; [reflexivity|]. cbn. destruct (stp w o) as (w1, x); cbn; destruct (rn w1 os); reflexivity. Qed.

  (** ** Invariant *)
  Definition right_event (h : list ev) (e : ev) : Prop :=
    match e with
    | Made _ k => k = count_made h /\ forall j, S j = k -> stop_called j h
    | NotMade _ => True
    | Wrote k _ | Refused k _ _ | Stop k | StopFailed k => last_made h = Some k
    end.
  Record Inv (w : world) : Prop := {
    iv_hist : every right_event (hist w);
    iv_cur : cur w = last_made (hist w);
    iv_made : made w = count_made (hist w);
    iv_num : cur w = match made w with 0 => None | S j => Some j end;
    iv_first : started w = false -> made w = 0;
    iv_mode : started w = false -> mode w = MFirst;
    iv_new : mode w = MNew -> elock w = false;
    iv_open : elock w = false -> started w = true -> mode w = MNew;
    iv_locks : slock w = true -> elock w = true
  }.
  Lemma Inv_fresh : Inv fresh.
  Proof. constructor; cbn; try reflexivity; try discriminate; apply every_nil. Qed.

  (** The part of the invariant that holds in the middle of an operation. *)
  Record Core (w : world) : Prop := {
    co_hist : every right_event (hist w);
    co_cur : cur w = last_made (hist w);
    co_made : made w = count_made (hist w);
    co_num : cur w = match made w with 0 => None | S j => Some j end
  }.
  Definition stopped_last (w : world) : Prop := forall j, cur w = Some j -> stop_called j (hist w).
  Lemma load_core : forall w w' b, load mk w = (w', b) -> Core w -> stopped_last w ->
    Core w' /\ started w' = started w /\ mode w' = mode w /\ elock w' = elock w /\ slock w' = slock w /\ pool w' = pool w /\ queue w' = queue w.
  Proof.
    intros w w' b E [H C M N] S; unfold load in E. destruct (mk (hist w) (value w)) as (ds, ok).
    destruct (existsb (waits w) ds); [injection E as <- <-; repeat split; assumption|].
    destruct ok; injection E as <- <-; (split; [constructor; cbn [note new_engine hist cur made]|repeat split]).
    - apply every_snoc; [exact H|]. cbn; split; [exact M|]. intros j J; apply S. rewrite N, <- J; reflexivity.
    - rewrite last_made_snoc; reflexivity.
    - rewrite count_made_snoc, M; reflexivity.
    - reflexivity.
    - apply every_snoc; [exact H|exact I].
    - rewrite last_made_snoc; exact C.
    - rewrite count_made_snoc; exact M.
    - exact N.
  Qed.
  Lemma stop_core : forall w w' b, stop st w = (w', b) -> Core w ->
    Core w' /\ started w' = started w /\ mode w' = mode w /\ elock w' = elock w /\ slock w' = slock w /\ pool w' = pool w /\ queue w' = queue w /\
    cur w' = cur w /\ made w' = made w /\ value w' = value w /\ (b = false -> stopped_last w').
  Proof.
    intros w w' b E [H C M N]; unfold stop in E. destruct (cur w) as [k|] eqn:Q.
    - destruct (st (hist w) k) as (ds, ok). destruct (existsb (waits w) ds); [injection E as <- <-; repeat split; try assumption; try congruence; discriminate|].
      injection E as <- <-; split; [constructor; cbn [note hist cur made]|cbn [note started mode elock slock pool queue value cur made]; repeat split; try assumption].
      + apply every_snoc; [exact H|destruct ok; symmetry; exact C].
      + rewrite last_made_snoc; destruct ok; rewrite Q; exact C.
      + rewrite count_made_snoc; destruct ok; exact M.
      + rewrite Q; exact N.
      + intros _ j J. cbn in J; rewrite Q in J; injection J as <-. destruct ok; [left|right]; cbn; apply in_or_app; right; left; reflexivity.
    - injection E as <- <-. split; [constructor; try assumption; congruence|]. repeat split; try assumption; try congruence.
  Qed.
  Lemma core_same : forall w w', hist w' = hist w -> cur w' = cur w -> made w' = made w -> Core w -> Core w'.
  Proof. intros w w' A B C [H D M N]; constructor; rewrite ?A, ?B, ?C; assumption. Qed.
  Lemma Inv_core : forall w, Inv w -> Core w.
  Proof. intros w [H C M N _ _ _ _ _]; constructor; assumption. Qed.

  Lemma new_write_inv : forall w r, Inv w -> Inv (fst (new_write wr w r)).
  Proof.
    intros w r K; unfold new_write. destruct (cur w) as [k|] eqn:Q; [|exact K]. destruct K as [H C M N F A B O L].
    destruct (wr (hist w) k r); cbn [fst]; constructor; cbn [note hist cur made started mode elock slock]; try assumption;
      try (rewrite last_made_snoc; exact C); try (rewrite count_made_snoc; exact M);
      (apply every_snoc; [exact H|cbn [right_event]; rewrite <- C; exact Q]).
  Qed.
  Ltac fin := try assumption; try congruence; intros; repeat match goal with X : ?a = ?a -> _ |- _ => specialize (X eq_refl) end; try assumption; try congruence;
    try (match goal with X : ?P -> _, Y : ?P |- _ => specialize (X Y) end; congruence).
  Lemma Inv_step : forall w o, Inv w -> Inv (fst (stp w o)).
  Proof.
    intros w o K; pose proof (Inv_core w K) as Q. destruct K as [H C M N F A B O L] eqn:EK; clear EK. destruct o as [r|which n|v|]; cbn [step].
    - unfold write. destruct (mode w) eqn:Em.
      + destruct (elock w) eqn:El; [exact K|]. destruct (started w) eqn:Es; [apply new_write_inv, K|].
        destruct (slock w) eqn:Sl; [specialize (L eq_refl); discriminate L|].
        destruct (load mk (set_started (set_gate w true MFirst))) as (w1, b) eqn:E.
        destruct (load_core _ _ _ E ltac:(apply (core_same w); [reflexivity|reflexivity|reflexivity|exact Q]) ltac:(intros j J; cbn in J; rewrite N, (F eq_refl) in J; discriminate J))
          as (Q1 & S1 & M1 & E1 & L1 & _ & _). cbn in S1, M1, E1, L1. destruct Q1 as [H1 C1 N1 D1].
        destruct b; cbn.
        * constructor; fin.
        * apply new_write_inv. constructor; cbn [set_gate set_slock set_size hist cur made started mode elock slock]; fin.
      + apply new_write_inv, K.
      + destruct (elock w) eqn:El; [exact K|]. apply new_write_inv, K.
    - unfold assign. destruct (slock w) eqn:Sl; [exact K|]. destruct (conflict w which n); [exact K|].
      destruct (Nat.eqb (if which then pool w else queue w) n); [exact K|]. unfold reload; cbn [elock set_slock set_size started].
      destruct (elock w) eqn:El; [cbn; constructor; cbn [set_gate set_slock set_size hist cur made started mode elock slock]; fin|].
      destruct (started w) eqn:Es; [|cbn; constructor; cbn [set_gate set_slock set_size hist cur made started mode elock slock]; fin].
      destruct (stop st (set_gate (set_slock (set_size w which n) true) true MBlocked)) as (w1, b1) eqn:E1.
      destruct (stop_core _ _ _ E1 ltac:(apply (core_same w); [reflexivity|reflexivity|reflexivity|exact Q])) as (Q1 & S1 & M1 & L1 & P1 & _ & _ & U1 & V1 & _ & T1). cbn in S1, M1, L1, P1, U1, V1. pose proof Q1 as [H1 C1 N1 D1].
      destruct b1; [cbn; constructor; fin|]. specialize (T1 eq_refl).
      destruct (load mk w1) as (w2, b2) eqn:E2.
      destruct (load_core _ _ _ E2 Q1 T1) as ([H2 C2 N2 D2] & S2 & M2 & L2 & P2 & _ & _).
      destruct b2; cbn; constructor; cbn [set_gate set_slock set_size hist cur made started mode elock slock]; fin.
    - constructor; assumption.
    - unfold exit_hook. assert (Inv (fst (if elock w then (w, Stuck) else let (w1, b) := stop st (set_gate w true MBlocked) in (w1, if b then Stuck else Done))) \/ mode w = MFirst) as [G|G].
      { destruct (mode w) eqn:Em; [right; reflexivity| |]; left; (destruct (elock w) eqn:El; [exact K|]);
          (destruct (stop st (set_gate w true MBlocked)) as (w1, b1) eqn:E1;
           destruct (stop_core _ _ _ E1 ltac:(apply (core_same w); [reflexivity|reflexivity|reflexivity|exact Q])) as (Q1 & S1 & M1 & L1 & P1 & _ & _ & U1 & V1 & _ & T1); cbn in S1, M1, L1, P1, U1, V1; destruct Q1 as [H1 C1 N1 D1]; cbn [fst];
           constructor; try assumption; try congruence; intros Z; rewrite S1 in Z; specialize (A Z); discriminate A). }
      + destruct (mode w); [exact K|exact G|exact G].
      + rewrite G; exact K.
  Qed.
  Lemma Inv_after : forall os, Inv (after os).
  Proof. apply (after_ind (fun _ w => Inv w)); [exact Inv_fresh|]. intros os o; apply Inv_step. Qed.

  (** ** C79: which engine gets what *)
  (** A record is given to the engine made last; engines are numbered in the order they are made; each is told to stop before the next one is made. *)
  Theorem C79_current_engine : forall os t1 t2 k r, hist (after os) = t1 ++ Wrote k r :: t2 -> last_made t1 = Some k.
  Proof. intros os t1 t2 k r E; exact (iv_hist _ (Inv_after os) t1 _ t2 E). Qed.
  Theorem C79_stopped_before_next : forall os t1 t2 v k, hist (after os) = t1 ++ Made v k :: t2 -> k = count_made t1 /\ forall j, S j = k -> stop_called j t1.
  Proof. intros os t1 t2 v k E; exact (iv_hist _ (Inv_after os) t1 _ t2 E). Qed.

  (** What one operation adds. *)
  Definition adds (v : nat) (w w' : world) : Prop :=
    exists t, hist w' = hist w ++ t /\ (forall u k, In (Made u k) t -> u = v) /\ (forall u, In (NotMade u) t -> u = v).
  Lemma adds_refl : forall v w w', hist w' = hist w -> adds v w w'.
  Proof. intros v w w' E; exists []; rewrite app_nil_r; split; [exact E|split; intros u; [intros k []|intros []]]. Qed.
  Lemma adds_trans : forall v a b c, adds v a b -> adds v b c -> adds v a c.
  Proof.
    intros v a b c (t & A1 & A2 & A3) (t' & B1 & B2 & B3); exists (t ++ t'); split; [rewrite B1, A1, app_assoc; reflexivity|split].
    - intros u k H; apply in_app_or in H; destruct H as [H|H]; [exact (A2 u k H)|exact (B2 u k H)].
    - intros u H; apply in_app_or in H; destruct H as [H|H]; [exact (A3 u H)|exact (B3 u H)].
  Qed.
  Lemma adds_one : forall v w w' e, hist w' = hist w ++ [e] -> (match e with Made u _ | NotMade u => u = v | _ => True end) -> adds v w w'.
  Proof. intros v w w' e E P; exists [e]; split; [exact E|split; [intros u k [H|[]]|intros u [H|[]]]; subst e; exact P]. Qed.
  Lemma load_adds : forall w, adds (value w) w (fst (load mk w)) /\ value (fst (load mk w)) = value w.
  Proof.
    intros w; unfold load; destruct (mk (hist w) (value w)) as (ds, ok). destruct (existsb (waits w) ds); [split; [apply adds_refl|]; reflexivity|].
    destruct ok; (split; [|reflexivity]); eapply adds_one; cbn; reflexivity.
  Qed.
  Lemma stop_adds : forall v w, adds v w (fst (stop st w)) /\ value (fst (stop st w)) = value w.
  Proof.
    intros v w; unfold stop; destruct (cur w) as [k|]; [|split; [apply adds_refl|]; reflexivity].
    destruct (st (hist w) k) as (ds, ok). destruct (existsb (waits w) ds); [split; [apply adds_refl|]; reflexivity|].
    split; [|reflexivity]; eapply adds_one; [cbn; reflexivity|destruct ok; exact I].
  Qed.
  Lemma new_write_adds : forall v w r, adds v w (fst (new_write wr w r)) /\ value (fst (new_write wr w r)) = value w.
  Proof.
    intros v w r; unfold new_write; destruct (cur w) as [k|]; [|split; [apply adds_refl|]; reflexivity].
    destruct (wr (hist w) k r); (split; [|reflexivity]); (eapply adds_one; [cbn; reflexivity|exact I]).
  Qed.
  Lemma step_adds : forall w o, adds (value w) w (fst (stp w o)) /\ value (fst (stp w o)) = match o with SetEngine u => u | _ => value w end.
  Proof.
    intros w [r|which n|v|]; cbn [step].
    - assert (D : adds (value w) w w) by (apply adds_refl; reflexivity). unfold write; destruct (mode w).
      + destruct (elock w); [split; [exact D|reflexivity]|]. destruct (started w); [apply new_write_adds|].
        destruct (slock w); [split; [apply adds_refl|]; reflexivity|].
        pose proof (load_adds (set_started (set_gate w true MFirst))) as (A & B). destruct (load mk _) as (w1, b); cbn [fst] in A, B. cbn in A, B.
        destruct b; cbn [fst]; [split; [exact A|exact B]|].
        destruct (new_write_adds (value w) (set_gate w1 false MNew) r) as (C & E). split; [|rewrite E; exact B].
        eapply adds_trans; [exact A|exact C].
      + apply new_write_adds.
      + destruct (elock w); [split; [exact D|reflexivity]|]. apply new_write_adds.
    - assert (D : adds (value w) w w) by (apply adds_refl; reflexivity). unfold assign.
      destruct (slock w); [split; [exact D|reflexivity]|]. destruct (conflict w which n); [split; [exact D|reflexivity]|].
      destruct (Nat.eqb _ n); [split; [exact D|reflexivity]|].
      assert (G : forall w0, adds (value w0) w0 (fst (reload mk st w0)) /\ value (fst (reload mk st w0)) = value w0).
      { intros w0; unfold reload. destruct (elock w0); [split; [apply adds_refl|]; reflexivity|]. destruct (started w0); [|split; [apply adds_refl|]; reflexivity].
        destruct (stop_adds (value w0) (set_gate w0 true MBlocked)) as (A & B). destruct (stop st _) as (w1, b1). cbn [fst] in A, B. cbn in B.
        destruct b1; [split; [exact A|exact B]|]. destruct (load_adds w1) as (A2 & B2). rewrite B in A2. destruct (load mk w1) as (w2, b2). cbn [fst] in A2, B2.
        destruct b2; cbn [fst]; (split; [eapply adds_trans; [exact A|exact A2]|cbn; rewrite B2; exact B]). }
      specialize (G (set_slock (set_size w which n) true)). destruct (reload mk st _) as (w1, b); cbn [fst] in G. destruct b; exact G.
    - split; [apply adds_refl|]; reflexivity.
    - unfold exit_hook. assert (D : adds (value w) w w) by (apply adds_refl; reflexivity).
      assert (G : adds (value w) w (fst (if elock w then (w, Stuck) else let (w1, b) := stop st (set_gate w true MBlocked) in (w1, if b then Stuck else Done))) /\
                  value (fst (if elock w then (w, Stuck) else let (w1, b) := stop st (set_gate w true MBlocked) in (w1, if b then Stuck else Done))) = value w).
      { destruct (elock w); [split; [exact D|reflexivity]|]. destruct (stop_adds (value w) (set_gate w true MBlocked)) as (A & B). destruct (stop st _) as (w1, b). split; [exact A|exact B]. }
      destruct (mode w); [split; [exact D|reflexivity]|exact G|exact G].
  Qed.
  Lemma value_after : forall os, value (after os) = engine_set os.
  Proof. apply (after_ind (fun os w => value w = engine_set os)); [reflexivity|]. intros os o E. rewrite (proj2 (step_adds _ o)), engine_set_snoc, E; destruct o; reflexivity. Qed.
  (** An engine is made from the value the setting engine has at that moment; setting it makes none. *)
  Theorem C79_setting_in_force : forall os o, exists t, hist (after (os ++ [o])) = hist (after os) ++ t /\
    (forall v k, In (Made v k) t -> v = engine_set os) /\ (forall v, o = SetEngine v -> t = []).
  Proof.
    intros os o; rewrite after_snoc. destruct (step_adds (after os) o) as ((t & A & B & _) & _). exists t; rewrite value_after in B; split; [exact A|split; [exact B|]].
    intros v ->; cbn in A. rewrite <- (app_nil_r (hist (after os))) in A at 1. apply app_inv_head in A; symmetry; exact A.
  Qed.

  (** No engine is made before the first record. *)
  Theorem C79_lazy : forall os, Forall (fun o => ~ is_write o) os -> hist (after os) = [].
  Proof.
    intros os F. assert (G : hist (after os) = [] /\ started (after os) = false /\ mode (after os) = MFirst); [|exact (proj1 G)].
    revert F; apply (after_ind (fun os w => Forall (fun o => ~ is_write o) os -> hist w = [] /\ started w = false /\ mode w = MFirst)); [cbn; auto|].
    intros xs o IH F; apply Forall_app in F; destruct F as (F & Fo). destruct (IH F) as (A & B & C). inversion Fo as [|x l N _ Eq]; subst.
    destruct o as [r|which n|v|]; [destruct (N I)| | |]; cbn [step].
    - unfold assign, reload. destruct (slock (after xs)); [auto|]. destruct (conflict _ which n); [auto|]. destruct (Nat.eqb _ n); [auto|]. cbn. destruct (elock (after xs)); [auto|]. rewrite B; auto.
    - auto.
    - unfold exit_hook; rewrite C; auto.
  Qed.

  (** ** C79: what a write does *)
  (** It returns when exactly one engine has taken the record and nobody refused it; it raises what the engine raised, or AttributeError when there is no engine. *)
  Theorem C79_write : forall os r, match outcome_of os (Write r) with
    | Done => exists t k, hist (after (os ++ [Write r])) = hist (after os) ++ t ++ [Wrote k r] /\ forall e, In e t -> exists v j, e = Made v j
    | Raised x => (exists t k, hist (after (os ++ [Write r])) = hist (after os) ++ t ++ [Refused k r x] /\ forall e, In e t -> exists v j, e = Made v j) \/
                  x = EAttributeError /\ last_made (hist (after (os ++ [Write r]))) = None
    | Stuck => True
    end.
  Proof.
    intros os r; rewrite after_snoc; unfold outcome_of; cbn [step].
    pose proof (Inv_step (after os) (Write r) (Inv_after os)) as Z; cbn [step] in Z. destruct (Inv_after os) as [H C M N F A B O L].
    assert (G : forall w t, hist w = hist (after os) ++ t -> (forall e, In e t -> exists v j, e = Made v j) -> Inv (fst (new_write wr w r)) ->
      match snd (new_write wr w r) with
      | Done => exists t k, hist (fst (new_write wr w r)) = hist (after os) ++ t ++ [Wrote k r] /\ forall e, In e t -> exists v j, e = Made v j
      | Raised x => (exists t k, hist (fst (new_write wr w r)) = hist (after os) ++ t ++ [Refused k r x] /\ forall e, In e t -> exists v j, e = Made v j) \/
                    x = EAttributeError /\ last_made (hist (fst (new_write wr w r))) = None
      | Stuck => True
      end).
    { intros w t E T I1. unfold new_write in *. destruct (cur w) as [k|] eqn:Q.
      - destruct (wr (hist w) k r) as [x|]; cbn [fst snd].
        + left; exists t, k; split; [cbn; rewrite E, app_assoc; reflexivity|exact T].
        + exists t, k; split; [cbn; rewrite E, app_assoc; reflexivity|exact T].
      - cbn [fst snd] in *; right; split; [reflexivity|]. rewrite <- (iv_cur _ I1); exact Q. }
    assert (G0 : Inv (fst (new_write wr (after os) r)) -> match snd (new_write wr (after os) r) with
      | Done => exists t k, hist (fst (new_write wr (after os) r)) = hist (after os) ++ t ++ [Wrote k r] /\ forall e, In e t -> exists v j, e = Made v j
      | Raised x => (exists t k, hist (fst (new_write wr (after os) r)) = hist (after os) ++ t ++ [Refused k r x] /\ forall e, In e t -> exists v j, e = Made v j) \/
                    x = EAttributeError /\ last_made (hist (fst (new_write wr (after os) r))) = None
      | Stuck => True
      end) by (apply (G (after os) []); [symmetry; apply app_nil_r|intros e []]).
    unfold write in *. destruct (mode (after os)).
    - destruct (elock (after os)); [exact I|]. destruct (started (after os)) eqn:Es; [exact (G0 Z)|]. destruct (slock (after os)); [exact I|].
      destruct (load mk _) as (w1, b) eqn:E. destruct b; [exact I|].
      unfold load in E; cbn [hist set_started set_gate value made] in E. destruct (mk _ _) as (ds, ok). destruct (existsb _ ds); [discriminate E|].
      destruct ok; injection E as <-.
      + apply (G _ [Made (value (after os)) (made (after os))]); [reflexivity|intros e [<-|[]]; eauto|exact Z].
      + assert (CN : cur (after os) = None) by (rewrite N, (F eq_refl); reflexivity).
        unfold new_write in Z |- *; cbn [cur set_gate note set_started] in Z |- *. rewrite CN in Z |- *. cbn [fst snd] in Z |- *. right; split; [reflexivity|].
        rewrite <- (iv_cur _ Z); exact CN.
    - exact (G0 Z).
    - destruct (elock (after os)); [exact I|exact (G0 Z)].
  Qed.

  (** ** C79: no records for a stopped engine, if constructors do not fail *)
  Definition fresh_record (h : list ev) (e : ev) : Prop := match e with Wrote k _ | Refused k _ _ => ~ stop_called k h | _ => True end.
  Definition small (w : world) : Prop := forall k, stop_called k (hist w) -> k < made w.
  Definition usable (w : world) : Prop := forall k, cur w = Some k -> ~ stop_called k (hist w).
  Lemma stop_called_snoc : forall k h e, stop_called k (h ++ [e]) -> stop_called k h \/ e = Stop k \/ e = StopFailed k.
  Proof. intros k h e [H|H]; apply in_app_or in H; destruct H as [H|[H|[]]]; unfold stop_called; auto. Qed.
  Lemma new_write_fresh : forall w r, every fresh_record (hist w) -> small w -> usable w ->
    every fresh_record (hist (fst (new_write wr w r))) /\ small (fst (new_write wr w r)) /\ usable (fst (new_write wr w r)).
  Proof.
    intros w r A B C; unfold new_write. destruct (cur w) as [k|] eqn:Q; [|auto]. destruct (wr (hist w) k r); cbn [fst];
      (split; [apply every_snoc; [exact A|exact (C k Q)]|split]; intros j; cbn; [intros H|intros E H]; apply stop_called_snoc in H; destruct H as [H|[H|H]]; try discriminate H;
       [exact (B j H)|exact (C j E H)]).
  Qed.
  Lemma load_fresh : (forall h v, snd (mk h v) = true) -> forall w w' b, load mk w = (w', b) -> every fresh_record (hist w) -> small w ->
    every fresh_record (hist w') /\ small w' /\ (b = false -> usable w').
  Proof.
    intros OK w w' b E A B; unfold load in E. specialize (OK (hist w) (value w)). destruct (mk (hist w) (value w)) as (ds, ok); cbn in OK; subst ok.
    destruct (existsb (waits w) ds); injection E as <- <-; [split; [exact A|split; [exact B|discriminate]]|].
    split; [apply every_snoc; [exact A|exact I]|split].
    - intros k H; cbn in H |- *; apply stop_called_snoc in H; destruct H as [H|[H|H]]; try discriminate H. specialize (B k H); lia.
    - intros _ k E H; cbn in E, H; injection E as <-; apply stop_called_snoc in H; destruct H as [H|[H|H]]; try discriminate H. specialize (B _ H); lia.
  Qed.
  Lemma stop_fresh : forall w w' b, stop st w = (w', b) -> Core w -> every fresh_record (hist w) -> small w -> every fresh_record (hist w') /\ small w'.
  Proof.
    intros w w' b E [H C M N] A B; unfold stop in E. destruct (cur w) as [k|] eqn:Q; [|injection E as <- <-; auto].
    destruct (st (hist w) k) as (ds, ok). destruct (existsb (waits w) ds); injection E as <- <-; [auto|].
    split; [apply every_snoc; [exact A|destruct ok; exact I]|]. intros j J; cbn in J |- *; apply stop_called_snoc in J; destruct J as [J|J]; [exact (B j J)|].
    assert (j = k) by (destruct J as [J|J]; destruct ok; congruence). subst j. destruct (made w); [discriminate N|injection N as ->; lia].
  Qed.
  Theorem C79_not_after_stop : (forall h v, snd (mk h v) = true) -> forall os t1 t2 k r, hist (after os) = t1 ++ Wrote k r :: t2 -> ~ stop_called k t1.
  Proof.
    intros OK os. enough (G : every fresh_record (hist (after os)) /\ small (after os) /\ (elock (after os) = false -> usable (after os))) by (intros t1 t2 k r E; exact (proj1 G t1 _ t2 E)).
    revert os; apply (after_ind (fun _ w => every fresh_record (hist w) /\ small w /\ (elock w = false -> usable w))).
    { split; [apply every_nil|split; [intros k [[]|[]]|intros _ k E; discriminate E]]. }
    intros os o (A & B & C). pose proof (Inv_after os) as K. pose proof (Inv_core _ K) as Q. destruct o as [r|which n|v|]; cbn [step].
    - assert (G : elock (after os) = false -> every fresh_record (hist (fst (new_write wr (after os) r))) /\ small (fst (new_write wr (after os) r)) /\
                   (elock (fst (new_write wr (after os) r)) = false -> usable (fst (new_write wr (after os) r)))).
      { intros El. destruct (new_write_fresh (after os) r A B (C El)) as (X & Y & Z); auto. }
      unfold write. destruct (mode (after os)) eqn:Em.
      + destruct (elock (after os)) eqn:El; [cbn [fst]; rewrite El; auto|]. destruct (started (after os)); [apply G; reflexivity|]. destruct (slock (after os)); [cbn; split; [exact A|split; [exact B|discriminate]]|].
        destruct (load mk _) as (w1, b) eqn:E. assert (E1 : elock w1 = true).
        { unfold load in E; destruct (mk _ _) as (ds, ok); destruct (existsb _ ds); [|destruct ok]; injection E as <- _; reflexivity. }
        destruct (load_fresh OK _ _ _ E A B) as (X & Y & Z).
        destruct b; cbn [fst]; [rewrite E1; split; [exact X|split; [exact Y|discriminate]]|].
        destruct (new_write_fresh (set_gate w1 false MNew) r X Y (Z eq_refl)) as (X1 & Y1 & Z1); auto.
      + apply G, (iv_new _ K), Em.
      + destruct (elock (after os)) eqn:El; [cbn [fst]; rewrite El; auto|apply G; reflexivity].
    - unfold assign. destruct (slock (after os)) eqn:Sl; [cbn [fst]; auto|]. destruct (conflict _ which n); [cbn [fst]; auto|]. destruct (Nat.eqb _ n); [cbn [fst]; auto|].
      unfold reload; cbn [elock started set_slock set_size]. destruct (elock (after os)) eqn:El; [cbn; split; [exact A|split; [exact B|intros X; congruence]]|].
      destruct (started (after os)) eqn:Es; [|cbn; auto]. destruct (stop st _) as (w1, b1) eqn:E1.
      destruct (stop_core _ _ _ E1 ltac:(apply (core_same (after os)); [reflexivity|reflexivity|reflexivity|exact Q])) as (Q1 & _ & _ & L1 & _).
      destruct (stop_fresh _ _ _ E1 ltac:(apply (core_same (after os)); [reflexivity|reflexivity|reflexivity|exact Q]) A B) as (A1 & B1).
      destruct b1; [cbn [fst]; rewrite L1; split; [exact A1|split; [exact B1|discriminate]]|].
      destruct (load mk w1) as (w2, b2) eqn:E2. assert (L2 : elock w2 = elock w1).
      { unfold load in E2; destruct (mk _ _) as (ds, ok); destruct (existsb _ ds); [|destruct ok]; injection E2 as <- _; reflexivity. }
      destruct (load_fresh OK _ _ _ E2 A1 B1) as (X & Y & Z).
      destruct b2; cbn [fst]; [rewrite L2, L1; split; [exact X|split; [exact Y|discriminate]]|]. split; [exact X|split; [exact Y|intros _; exact (Z eq_refl)]].
    - auto.
    - unfold exit_hook. assert (D : every fresh_record (hist (after os)) /\ small (after os) /\ (elock (after os) = false -> usable (after os))) by auto.
      destruct (mode (after os)); [exact D| |]; (destruct (elock (after os)) eqn:El; [cbn [fst]; rewrite El; auto|]);
        (destruct (stop st _) as (w1, b1) eqn:E1;
         destruct (stop_core _ _ _ E1 ltac:(apply (core_same (after os)); [reflexivity|reflexivity|reflexivity|exact Q])) as (Q1 & _ & _ & L1 & _);
         destruct (stop_fresh _ _ _ E1 ltac:(apply (core_same (after os)); [reflexivity|reflexivity|reflexivity|exact Q]) A B) as (A1 & B1);
         cbn [fst]; rewrite L1; split; [exact A1|split; [exact B1|discriminate]]).
  Qed.

  (** ** C79: nobody waits for ever *)
  Definition calm : Prop := (forall h v d, In d (fst (mk h v)) -> harmless d) /\ (forall h k d, In d (fst (st h k)) -> harmless d).
  Definition free (w : world) : Prop := elock w = false /\ slock w = false.
  Lemma harmless_waits : forall w ds, (forall d, In d ds -> harmless d) -> existsb (waits w) ds = false.
  Proof.
    intros w ds H; induction ds as [|d ds IH]; cbn; [reflexivity|]. rewrite IH by (intros x X; apply H; right; exact X). specialize (H d (or_introl eq_refl)).
    destruct d as [n|]; [|destruct H]. destruct H as (N1 & N2). cbn. unfold locked_setting.
    destruct (String.eqb_spec n "pool_size") as [->|_]; [destruct (N1 eq_refl)|]. destruct (String.eqb_spec n "max_queue_size") as [->|_]; [destruct (N2 eq_refl)|].
    cbn; rewrite andb_false_r; reflexivity.
  Qed.
  Lemma calm_load : calm -> forall w, exists w', load mk w = (w', false) /\ elock w' = elock w /\ slock w' = slock w /\ started w' = started w /\ mode w' = mode w.
  Proof.
    intros (C & _) w; unfold load. specialize (C (hist w) (value w)). destruct (mk (hist w) (value w)) as (ds, ok). rewrite (harmless_waits w ds C).
    destruct ok; eexists; (split; [reflexivity|]); auto.
  Qed.
  Lemma calm_stop : calm -> forall w, exists w', stop st w = (w', false) /\ elock w' = elock w /\ slock w' = slock w /\ started w' = started w /\ mode w' = mode w.
  Proof.
    intros (_ & C) w; unfold stop. destruct (cur w) as [k|]; [|eexists; split; [reflexivity|auto]]. specialize (C (hist w) k). destruct (st (hist w) k) as (ds, ok).
    rewrite (harmless_waits w ds C). eexists; (split; [reflexivity|]); auto.
  Qed.
  Lemma new_write_free : forall w r, free w -> free (fst (new_write wr w r)) /\ snd (new_write wr w r) <> Stuck.
  Proof. intros w r F; unfold new_write. destruct (cur w) as [k|]; [destruct (wr (hist w) k r)|]; cbn; (split; [exact F|discriminate]). Qed.
  Lemma free_step : calm -> forall w o, ~ is_exit o -> free w -> free (fst (stp w o)) /\ snd (stp w o) <> Stuck.
  Proof.
    intros C w o X F; pose proof F as (El & Sl). destruct o as [r|which n|v|]; cbn [step].
    - unfold write; rewrite El, Sl. destruct (mode w); [|apply new_write_free, F|apply new_write_free, F]. destruct (started w); [apply new_write_free, F|].
      destruct (calm_load C (set_started (set_gate w true MFirst))) as (w1 & -> & _ & S1 & _). apply new_write_free. split; [reflexivity|cbn; rewrite S1; exact Sl].
    - unfold assign; rewrite Sl. destruct (conflict w which n); [split; [exact F|discriminate]|]. destruct (Nat.eqb _ n); [split; [exact F|discriminate]|].
      unfold reload; cbn [elock started set_slock set_size]; rewrite El. destruct (started w); [|split; [split; [exact El|reflexivity]|discriminate]].
      destruct (calm_stop C (set_gate (set_slock (set_size w which n) true) true MBlocked)) as (w1 & -> & _). destruct (calm_load C w1) as (w2 & -> & _).
      split; [split; reflexivity|discriminate].
    - split; [exact F|discriminate].
    - destruct (X I).
  Qed.
  Lemma free_after : calm -> forall os, Forall (fun o => ~ is_exit o) os -> free (after os).
  Proof.
    intros C; apply (after_ind (fun os w => Forall (fun o => ~ is_exit o) os -> free w)); [intros _; split; reflexivity|].
    intros os o IH F; apply Forall_app in F; destruct F as (F & Fo). inversion Fo as [|x l N _ Eq]; subst. apply free_step; [exact C|exact N|exact (IH F)].
  Qed.
  (** However often constructors, stop() and write() raise: if they read neither size nor write records while constructing and stopping, no operation blocks before the program ends. *)
  Theorem C79_never_stuck : calm -> forall os o, Forall (fun x => ~ is_exit x) os -> ~ is_exit o -> outcome_of os o <> Stuck.
  Proof. intros C os o F N; apply free_step; [exact C|exact N|apply free_after; assumption]. Qed.

  (** Whoever is stuck while assigning a size blocks every later record and every later assignment of a size. *)
  Definition jammed (w : world) : Prop := elock w = true /\ slock w = true /\ mode w <> MNew.
  Lemma jammed_step : forall w o, jammed w -> jammed (fst (stp w o)) /\ (uses_locks o -> snd (stp w o) = Stuck).
  Proof.
    intros w o J; pose proof J as (El & Sl & M). destruct o as [r|which n|v|]; cbn [step].
    - unfold write; rewrite El. destruct (mode w); [auto|contradiction M; reflexivity|auto].
    - unfold assign; rewrite Sl. auto.
    - split; [exact J|intros []].
    - unfold exit_hook; rewrite El. destruct (mode w); (split; [exact J|intros []]).
  Qed.
  Lemma stuck_jams : forall w which n, Inv w -> snd (stp w (SetSize which n)) = Stuck -> jammed (fst (stp w (SetSize which n))).
  Proof.
    intros w which n K E; pose proof (Inv_step w (SetSize which n) K) as K'. cbn [step] in *; unfold assign in *.
    assert (G : forall x, Inv x -> slock x = true -> jammed x).
    { intros x Kx Sx. pose proof (iv_locks _ Kx Sx) as Lx. split; [exact Lx|split; [exact Sx|]]. intros Mx; pose proof (iv_new _ Kx Mx); congruence. }
    destruct (slock w) eqn:Sl; [apply G; assumption|]. destruct (conflict w which n); [discriminate E|]. destruct (Nat.eqb _ n); [discriminate E|].
    destruct (reload mk st _) as (w1, b) eqn:R. destruct b; [|discriminate E]. cbn [fst] in *. apply G; [exact K'|].
    unfold reload in R; cbn [elock started set_slock set_size] in R. destruct (elock w); [injection R as <-; reflexivity|]. destruct (started w); [|discriminate R].
    destruct (stop st _) as (w2, b1) eqn:E1. destruct (stop_core _ _ _ E1 ltac:(apply (core_same w); [reflexivity|reflexivity|reflexivity|exact (Inv_core w K)])) as (_ & _ & _ & _ & S1 & _). cbn in S1.
    destruct b1; [injection R as <-; exact S1|]. unfold load in R. destruct (mk _ _) as (ds, ok). destruct (existsb _ ds); [injection R as <-; exact S1|]. destruct ok; discriminate R.
  Qed.
  Theorem C79_stuck_for_ever : forall os which n os' o, outcome_of os (SetSize which n) = Stuck -> uses_locks o -> outcome_of (os ++ SetSize which n :: os') o = Stuck.
  Proof.
    intros os which n os' o E U. apply jammed_step; [|exact U].
    replace (os ++ SetSize which n :: os') with ((os ++ [SetSize which n]) ++ os') by (rewrite <- app_assoc; reflexivity).
    unfold after; rewrite run_app; change (fst (rn fresh (os ++ [SetSize which n]))) with (after (os ++ [SetSize which n])).
    assert (J : jammed (after (os ++ [SetSize which n]))) by (rewrite after_snoc; apply stuck_jams; [apply Inv_after|exact E]).
    revert J; generalize (after (os ++ [SetSize which n])); induction os' as [|x os' IH]; intros w J; [exact J|].
    cbn [run]. pose proof (proj1 (jammed_step w x J)) as J1. destruct (stp w x) as (w1, y); cbn [fst] in J1. specialize (IH w1 J1). destruct (rn w1 os'); exact IH.
  Qed.

  (** ** C79: the whole story, if no engine ever fails *)
  Theorem C79_story : calm -> (forall h v, snd (mk h v) = true) -> (forall h k, snd (st h k) = true) -> (forall h k r, wr h k r = None) ->
    forall os, Forall (fun o => ~ is_exit o) os -> hist (after os) = story 0 0 0 None os.
  Proof.
    intros C OM OS OW os F.
    enough (G : forall w, free w -> (cur w = None /\ made w = 0 /\ started w = false /\ mode w = MFirst \/ exists k, cur w = Some k /\ made w = S k /\ started w = true /\ mode w = MNew) ->
      hist (fst (rn w os)) = hist w ++ story (value w) (pool w) (queue w) (cur w) os).
    { exact (G fresh (conj eq_refl eq_refl) (or_introl (conj eq_refl (conj eq_refl (conj eq_refl eq_refl))))). }
    assert (LD : forall w, load mk w = (note (new_engine w (made w)) (Made (value w) (made w)), false)).
    { intros w; unfold load. specialize (OM (hist w) (value w)). pose proof (proj1 C (hist w) (value w)) as C1. destruct (mk (hist w) (value w)) as (ds, ok); cbn in OM, C1; subst ok.
      rewrite (harmless_waits w ds C1); reflexivity. }
    assert (SP : forall w k, cur w = Some k -> stop st w = (note w (Stop k), false)).
    { intros w k E; unfold stop; rewrite E. specialize (OS (hist w) k). pose proof (proj2 C (hist w) k) as C1. destruct (st (hist w) k) as (ds, ok); cbn in OS, C1; subst ok.
      rewrite (harmless_waits w ds C1); reflexivity. }
    induction F as [|o os N F IH]; intros w Fr D; [cbn; symmetry; apply app_nil_r|].
    cbn [run]. pose proof Fr as (El & Sl).
    assert (R : forall w1 x, stp w o = (w1, x) -> hist (fst (let (w1, x) := stp w o in let (w2, xs) := rn w1 os in (w2, x :: xs))) = hist (fst (rn w1 os))).
    { intros w1 x ->. destruct (rn w1 os); reflexivity. }
    destruct o as [r|which n|v|]; [| | |destruct (N I)].
    - destruct D as [(D1 & D2 & D3 & D4)|(k & D1 & D2 & D3 & D4)].
      + assert (E : stp w (Write r) = (note (set_gate (note (new_engine (set_started (set_gate w true MFirst)) 0) (Made (value w) 0)) false MNew) (Wrote 0 r), Done)).
        { cbn [step]; unfold write; rewrite D4, El, D3, Sl, LD. unfold new_write; cbn. rewrite D2, OW; reflexivity. }
        rewrite (R _ _ E), IH; [|split; [reflexivity|exact Sl]|right; exists 0; auto]. cbn [story]; rewrite D1. cbn. rewrite <- !app_assoc; reflexivity.
      + assert (E : stp w (Write r) = (note w (Wrote k r), Done)) by (cbn [step]; unfold write; rewrite D4; unfold new_write; rewrite D1, OW; reflexivity).
        rewrite (R _ _ E), IH; [|exact Fr|right; exists k; auto]. cbn [story]; rewrite D1. cbn. rewrite D1, <- app_assoc; reflexivity.
    - cbn [story]. set (p' := if which then n else pool w). set (q' := if which then queue w else n).
      assert (E0 : conflict w which n = Nat.eqb p' 0 && negb (Nat.eqb q' 0)).
      { unfold conflict, p', q'; destruct which; [reflexivity|apply andb_comm]. }
      assert (E1 : Nat.eqb (if which then pool w else queue w) n = Nat.eqb p' (pool w) && Nat.eqb q' (queue w)).
      { unfold p', q'; destruct which; rewrite Nat.eqb_refl, ?andb_true_r; cbn; apply Nat.eqb_sym. }
      assert (E : forall w1 x, assign mk st w which n = (w1, x) -> stp w (SetSize which n) = (w1, x)) by (intros; assumption).
      unfold assign in E at 1; rewrite Sl, E0, E1 in E.
      destruct (Nat.eqb p' 0 && negb (Nat.eqb q' 0)); [cbn [orb]; rewrite (R _ _ (E _ _ eq_refl)); apply IH; assumption|].
      destruct (Nat.eqb p' (pool w) && Nat.eqb q' (queue w)); [cbn [orb]; rewrite (R _ _ (E _ _ eq_refl)); apply IH; assumption|]. cbn [orb].
      unfold reload in E; cbn [elock started set_slock set_size] in E. rewrite El in E.
      destruct D as [(D1 & D2 & D3 & D4)|(k & D1 & D2 & D3 & D4)]; rewrite D3 in E.
      + rewrite (R _ _ (E _ _ eq_refl)), IH; [|split; [exact El|reflexivity]|left; auto]. rewrite D1; cbn. rewrite D1; reflexivity.
      + rewrite (SP (set_gate (set_slock (set_size w which n) true) true MBlocked) k D1), LD in E. rewrite (R _ _ (E _ _ eq_refl)), IH.
        * rewrite D1; cbn. rewrite D2, <- !app_assoc; reflexivity.
        * split; reflexivity.
        * right; exists (S k); cbn; rewrite D2; auto.
    - rewrite (R _ _ eq_refl), IH; [reflexivity|exact Fr|exact D].
  Qed.

  (** ** C79: a constructor that fails at the first record *)
  Lemma new_write_started : forall w r, started (fst (new_write wr w r)) = started w.
  Proof. intros w r; unfold new_write; destruct (cur w) as [k|]; [destruct (wr (hist w) k r)|]; reflexivity. Qed.
  Lemma started_step : calm -> forall w o, Inv w -> free w -> ~ is_exit o -> started (fst (stp w o)) = match o with Write _ => true | _ => started w end.
  Proof.
    intros C w o K (El & Sl) X. destruct o as [r|which n|v|]; cbn [step].
    - unfold write; rewrite El, Sl. assert (G : mode w <> MFirst -> started w = true).
      { intros M; destruct (started w) eqn:Es; [reflexivity|]. destruct (M (iv_mode _ K Es)). }
      destruct (mode w); [|rewrite new_write_started; apply G; discriminate|rewrite new_write_started; apply G; discriminate].
      destruct (started w) eqn:Es; [rewrite new_write_started; exact Es|]. destruct (calm_load C (set_started (set_gate w true MFirst))) as (w1 & -> & _ & _ & S1 & _).
      rewrite new_write_started; exact S1.
    - unfold assign; rewrite Sl. destruct (conflict w which n); [reflexivity|]. destruct (Nat.eqb _ n); [reflexivity|].
      unfold reload; cbn [elock started set_slock set_size]; rewrite El. destruct (started w) eqn:Es; [|cbn; exact Es].
      destruct (calm_stop C (set_gate (set_slock (set_size w which n) true) true MBlocked)) as (w1 & -> & _ & _ & S1 & _). destruct (calm_load C w1) as (w2 & -> & _ & _ & S2 & _).
      cbn; rewrite S2, S1; exact Es.
    - reflexivity.
    - destruct (X I).
  Qed.
  Lemma started_after : calm -> forall os, Forall (fun o => ~ is_exit o) os -> Exists is_write os -> started (after os) = true.
  Proof.
    intros C; apply (after_ind (fun os w => Forall (fun o => ~ is_exit o) os -> Exists is_write os -> started w = true)); [intros _ X; inversion X|].
    intros os o IH F X; apply Forall_app in F; destruct F as (F & Fo). inversion Fo as [|x l N _ Eq]; subst.
    rewrite (started_step C _ o (Inv_after os) (free_after C os F) N). destruct o; try reflexivity; (apply IH; [exact F|]); apply Exists_app in X; (destruct X as [X|X]; [exact X|inversion X as [? ? Y|? ? Y]; [destruct Y|inversion Y]]).
  Qed.
  (** If records were written and there is still no engine, every record raises AttributeError, whatever engine is set later, until a size is changed. *)
  Theorem C79_first_fails : calm -> forall os ys r, Forall (fun o => ~ is_exit o) os -> Exists is_write os -> last_made (hist (after os)) = None ->
    Forall (fun o => match o with Write _ | SetEngine _ => True | _ => False end) ys -> outcome_of (os ++ ys) (Write r) = Raised EAttributeError.
  Proof.
    intros C os ys r F X L Y. destruct (free_after C os F) as (El & Sl). pose proof (Inv_after os) as K.
    assert (M : mode (after os) = MNew) by (apply (iv_open _ K); [exact El|apply started_after; assumption]). rewrite <- (iv_cur _ K) in L.
    assert (G : forall w, cur w = None /\ mode w = MNew -> cur (fst (rn w ys)) = None /\ mode (fst (rn w ys)) = MNew).
    { induction Y as [|o ys Yo Y IH]; intros w (A & B); [split; assumption|]. cbn [run]. destruct o as [q| |v|]; try destruct Yo.
      - cbn [step]; unfold write; rewrite B; unfold new_write; rewrite A. specialize (IH w (conj A B)). destruct (rn w ys); exact IH.
      - cbn [step]. specialize (IH (set_value w v) (conj A B)). destruct (rn (set_value w v) ys); exact IH. }
    destruct (G (after os) (conj L M)) as (A & B). unfold outcome_of, after; rewrite run_app. change (fst (rn fresh os)) with (after os).
    cbn [step]; unfold write; rewrite B; unfold new_write; rewrite A; reflexivity.
  Qed.
End Props.

(** ** Examples *)
Definition good_mk (h : list ev) (v : nat) : list does * bool := ([Reads "level"], true).
Definition good_wr (h : list ev) (k r : nat) : option exn := None.
Definition good_st (h : list ev) (k : nat) : list does * bool := ([], true).
Example ex_user :
  let os := [SetEngine 5; SetSize true 2; SetSize false 4; Write 1; SetEngine 7; Write 2; SetSize true 0; SetSize true 2; SetSize true 3; Write 3; Exit; Write 4] in
  hist (after good_mk good_wr good_st os) = [Made 5 0; Wrote 0 1; Wrote 0 2; Stop 0; Made 7 1; Wrote 1 3; Stop 1] /\
  snd (run good_mk good_wr good_st fresh os) = [Done; Done; Done; Done; Done; Done; Raised EValueError; Done; Done; Done; Done; Stuck] /\
  story 0 0 0 None os = [Made 5 0; Wrote 0 1; Wrote 0 2; Stop 0; Made 7 1; Wrote 1 3; Wrote 1 4] /\
  calm good_mk good_st.
Proof.
  split; [vm_compute; reflexivity|split; [vm_compute; reflexivity|split; [vm_compute; reflexivity|]]].
  split; [intros h v d [<-|[]]; cbn; split; discriminate|intros h k d []].
Qed.
(** The constructor of engine 9 raises: the first record and those after it raise although a good engine is set, until pool_size is changed. *)
Definition nine_fails (h : list ev) (v : nat) : list does * bool := ([], negb (Nat.eqb v 9)).
Example ex_user_fails :
  let os := [SetEngine 9; Write 1; SetEngine 5; Write 2; SetSize true 2; Write 3] in
  hist (after nine_fails good_wr good_st os) = [NotMade 9; Made 5 0; Wrote 0 3] /\
  snd (run nine_fails good_wr good_st fresh os) = [Done; Raised EAttributeError; Done; Raised EAttributeError; Done; Done] /\ calm nine_fails good_st.
Proof. split; [vm_compute; reflexivity|split; [vm_compute; reflexivity|split; [intros h v d []|intros h k d []]]]. Qed.
(** "A stopped engine is given no more records": refuted, if the next engine cannot be made. *)
Theorem C79_stopped_not_used_refuted : exists mk wr st os t1 k r t2, calm mk st /\ hist (after mk wr st os) = t1 ++ Wrote k r :: t2 /\ In (Stop k) t1.
Proof.
  exists nine_fails, good_wr, good_st, [Write 1; SetEngine 9; SetSize true 2; Write 2], [Made 0 0; Wrote 0 1; Stop 0; NotMade 9], 0, 2, [].
  split; [split; [intros h v d []|intros h k d []]|]. split; [vm_compute; reflexivity|right; right; left; reflexivity].
Qed.
(** "An engine may read the settings it is given": refuted.  With a constructor that reads pool_size the first record is written, the next change of a size
    never ends, and neither does any record after it. *)
Theorem C79_reading_settings_refuted : exists mk wr st, (forall h v, mk h v = ([Reads "pool_size"], true)) /\ (forall h k, st h k = ([], true)) /\
  outcome_of mk wr st [] (Write 1) = Done /\ outcome_of mk wr st [Write 1] (SetSize true 2) = Stuck /\
  forall os r, outcome_of mk wr st (Write 1 :: SetSize true 2 :: os) (Write r) = Stuck.
Proof.
  exists (fun _ _ => ([Reads "pool_size"], true)), good_wr, good_st.
  split; [reflexivity|split; [reflexivity|split; [vm_compute; reflexivity|split; [vm_compute; reflexivity|]]]].
  intros os r; apply (C79_stuck_for_ever _ _ _ [Write 1] true 2 os (Write r)); [vm_compute; reflexivity|exact I].
Qed.
(** The same for an engine that writes a record while it is made: already the first record never ends. *)
Theorem C79_logging_constructor_refuted : exists mk wr st, (forall h v, mk h v = ([Logs], true)) /\ (forall h k, st h k = ([], true)) /\
  outcome_of mk wr st [] (Write 1) = Stuck /\ forall r, outcome_of mk wr st [Write 1] (Write r) = Stuck.
Proof. exists (fun _ _ => ([Logs], true)), good_wr, good_st. split; [reflexivity|split; [reflexivity|split; [vm_compute; reflexivity|intros r; vm_compute; reflexivity]]]. Qed.

Print Assumptions C79_current_engine.
Print Assumptions C79_stopped_before_next.
Print Assumptions C79_setting_in_force.
Print Assumptions C79_lazy.
Print Assumptions C79_write.
Print Assumptions C79_not_after_stop.
Print Assumptions C79_never_stuck.
Print Assumptions C79_stuck_for_ever.
Print Assumptions C79_story.
Print Assumptions C79_first_fails.
Print Assumptions C79_stopped_not_used_refuted.
Print Assumptions C79_reading_settings_refuted.
Print Assumptions C79_logging_constructor_refuted.
